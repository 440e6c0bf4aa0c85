(* What the graph operators are meant to compute, over edges (source, destination, weight) between nodes 0..n-1. *)
From Coq Require Import QArith Qminmax.
From Verif Require Import Prelude QFacts.
Local Open Scope Z_scope.
Local Open Scope list_scope.
Local Notation length := List.length.

(* the weights a caller gives: one per edge, or none for all ones *)
Definition given (weight : option (list Q)) (E : list (Z * Z)) (w : list Q) : Prop :=
  length w = length E /\ match weight with None => forall x, In x w -> x = 1%Q | Some l => l = w end.
Definition node (n : nat) (i : Z) : Prop := 0 <= i < Z.of_nat n.
Definition nodes (n : nat) (E : list (Z * Z)) : Prop := forall s d, In (s, d) E -> node n s /\ node n d.
(* a matrix of n rows and k columns, and its number in row i and column c *)
Definition shaped (n k : nat) (X : list (list Q)) : Prop := length X = n /\ forall r, In r X -> length r = k.
Definition at_ (X : list (list Q)) (i c : nat) : Q := nth c (nth i X []) 0%Q.
(* the total weight arriving at a node *)
Definition arriving (E : list (Z * Z)) (w : list Q) (i : Z) : Q :=
  Qsum (map (fun e : Z * Z * Q => if snd (fst e) =? i then snd e else 0%Q) (combine E w)).
(* what node i receives in column c: the weighted sum of the rows of its sources *)
Definition received (E : list (Z * Z)) (w : list Q) (X : list (list Q)) (i c : nat) : Q :=
  Qsum (map (fun e : Z * Z * Q => if snd (fst e) =? Z.of_nat i then snd e * at_ X (Z.to_nat (fst (fst e))) c else 0)%Q (combine E w)).
(* matrices with the same numbers *)
Definition same (n k : nat) (A B : list (list Q)) : Prop := shaped n k A /\ shaped n k B /\ forall i c, (i < n)%nat -> (c < k)%nat -> (at_ A i c == at_ B i c)%Q.
