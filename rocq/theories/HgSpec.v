(* Vocabulary for the coarsening of a graph. *)
From Coq Require Import QArith List Arith ZArith.
Import ListNotations.
Local Open Scope nat_scope.

(* the edges from i to j, and what they weigh together *)
Definition weight_between (edges : list (nat * nat * Q)) (i j : nat) : Q :=
  fold_right Qplus 0%Q (map snd (filter (fun e => Nat.eqb (fst (fst e)) i && Nat.eqb (snd (fst e)) j)%bool edges)).

(* a weighted graph, as the weight from a node to another *)
Definition graph := nat -> nat -> Q.
Definition adjacent (n : nat) (w : graph) (v u : nat) : Prop := u < n /\ u <> v /\ ~ (w v u == 0)%Q.
Definition twins (n : nat) (w : graph) (a b : nat) : Prop := forall u, adjacent n w a u <-> adjacent n w b u.
Definition symmetric (n : nat) (w : graph) : Prop := forall i j, i < n -> j < n -> (w i j == w j i)%Q.

(* every node is in one group and in no other, once *)
Definition partition (n : nat) (groups : list (list nat)) : Prop :=
  NoDup (concat groups) /\ forall i, In i (concat groups) <-> i < n.

(* what the edges weigh together, from the members of one group to those of another *)
Definition between (w : graph) (g h : list nat) : Q :=
  fold_right Qplus 0%Q (map (fun i => fold_right Qplus 0%Q (map (w i) h)) g).
Definition total (n : nat) (w : graph) : Q := between w (seq 0 n) (seq 0 n).

(* how the next group is formed once the nodes of earlier groups are taken: twins, or a node and the
   free neighbour it scores highest (the first of those), or a node without free neighbours *)
Definition well_grouped (n : nat) (w : graph) (score : nat -> nat -> Q) (taken : nat -> Prop) (g : list nat) : Prop :=
  (exists a b, g = [a; b] /\ twins n w a b)
  \/ (exists v b, g = [v; b] /\ adjacent n w v b
       /\ forall u, adjacent n w v u -> ~ taken u ->
            (score v u <= score v b)%Q /\ ((score v u == score v b)%Q -> b <= u))
  \/ (exists v, g = [v] /\ forall u, adjacent n w v u -> taken u).
