(* Vocabulary for C156 and C157: rows chosen from data sets and nodes chosen from graphs. *)
From Coq Require Import String Sorted Permutation.
From Verif Require Import Prelude.
Local Open Scope Z_scope.
Local Open Scope list_scope.
Local Notation length := List.length.

(* r holds the rows of l at the positions p, in that order *)
Definition picks {A} (l : list A) (p : list nat) (r : list A) : Prop := Forall2 (fun i a => nth_error l i = Some a) p r.
(* a label passes the class filter *)
Definition wanted (cf : option (list Z)) (l : Z) : Prop := forall c, cf = Some c -> In l c.
(* all: the positions of labels that pass, in order *)
Definition passing (cf : option (list Z)) (y : list Z) (all : list nat) : Prop :=
  StronglySorted lt all /\ forall i, In i all <-> exists l, nth_error y i = Some l /\ wanted cf l.
(* p: as many of them as the limit allows; the first ones without a seed *)
Definition limited (max seed : option Z) (all p : list nat) : Prop :=
  NoDup p /\ incl p all /\ length p = (match max with None => length all | Some m => Nat.min (length all) (Z.to_nat m) end) /\
  (seed = None \/ max = None -> p = firstn (length p) all).
(* with a seed they are the first ones of all in the order of the shuffle: as drawn, or in any order *)
Definition drawn (shuffle : Z -> nat -> list nat) (s : Z) (all p : list nat) : list nat := map (fun i => nth i all 0%nat) (firstn (length p) (shuffle s (length all))).
(* a node has a label that passes; missing labels count as -1; everything passes without labels *)
Definition candidates (cf : option (list Z)) (ls : option (list Z)) (n : nat) (all : list nat) : Prop :=
  StronglySorted lt all /\ forall i, In i all <-> (i < n)%nat /\ forall y, ls = Some y -> wanted cf (nth i y (-1)).
(* the edges new of a subgraph are the edges old, with the nodes K renumbered by their place *)
Definition renumbered (K : list nat) (old new : list (Z * Z)) : Prop :=
  Forall2 (fun e p => nth_error (map Z.of_nat K) (Z.to_nat (fst p)) = Some (fst e) /\ nth_error (map Z.of_nat K) (Z.to_nat (snd p)) = Some (snd e) /\ 0 <= fst p /\ 0 <= snd p) old new.
