(* What C142 says: links of the graph, walks over it, and the layers of a network, node by node. *)
From Coq Require Import QArith Qminmax.
From Verif Require Import Prelude QFacts TransModel GnnModel GnnSpec NgcnModel.
Local Open Scope Q_scope.
Local Open Scope list_scope.

(* the weight of the link written from i to j: the sum over its mentions *)
Definition written (E : list edge) (i j : nat) : Q := Qsum (map e_w (filter (fun e => ((e_src e =? Z.of_nat i) && (e_dst e =? Z.of_nat j))%Z) E)).
(* the tie of node i to node j: the written link, or the stronger of both directions; a loop counts 1, whatever is written *)
Definition tie (symmetrize loops : bool) (E : list edge) (i j : nat) : Q :=
  if Nat.eqb i j then (if loops then 1 else 0)
  else if symmetrize then Qmax (written E i j) (written E j i) else written E i j.
(* the tie, divided by the square roots of the totals of both ends *)
Definition scaled_tie (rsqrt : Q -> Q) (tiny : Q) (symmetrize loops : bool) (n : nat) (E : list edge) (i j : nat) : Q :=
  let total a := Qmax (Qsum (map (tie symmetrize loops E a) (seq 0 n))) tiny in rsqrt (total i) * tie symmetrize loops E i j * rsqrt (total j).
(* all the ways to visit k nodes, one after the other *)
Fixpoint visits (n k : nat) : list (list nat) := match k with O => [[]] | S k => flat_map (fun a => map (cons a) (visits n k)) (seq 0 n) end.
Fixpoint along (W : nat -> nat -> Q) (i : nat) (l : list nat) : Q := match l with [] => 1 | a :: r => W i a * along W a r end.
(* the weight of all walks of k steps from i to j *)
Definition walk_weight (n : nat) (W : nat -> nat -> Q) (k i j : nat) : Q := Qsum (map (along W i) (filter (fun l => Nat.eqb (last l i) j) (visits n k))).
(* j is at most r links from i, following the links as they are written, or both ways when they are symmetrized *)
Inductive nearby (symmetrize : bool) (E : list edge) : nat -> nat -> nat -> Prop :=
| nearby_here r i : nearby symmetrize E r i i
| nearby_link r i a j e : In e E -> (e_src e = Z.of_nat i /\ e_dst e = Z.of_nat a) \/ (symmetrize = true /\ e_src e = Z.of_nat a /\ e_dst e = Z.of_nat i) ->
    nearby symmetrize E r a j -> nearby symmetrize E (S r) i j.

(* one network over the weights P: every layer mixes the rows with P and applies its linear part; all but the last cut at 0 *)
Definition mixed (n d : nat) (P : nat -> nat -> Q) (H : nat -> list Q) (i : nat) : list Q :=
  map (fun c => Qred (Qsum (map (fun j => P i j * nth c (H j) 0) (seq 0 n)))) (seq 0 d).
Inductive network (n : nat) (P : nat -> nat -> Q) : list layer -> (nat -> list Q) -> (nat -> list Q) -> Prop :=
| network_last d lin H V : (forall i, (i < n)%nat -> V i = lin (mixed n d P H i)) -> network n P [(d, lin)] H V
| network_more d lin l r H H' V : (forall i, (i < n)%nat -> H' i = map (fun x => Qmax x 0) (lin (mixed n d P H i))) -> network n P (l :: r) H' V -> network n P ((d, lin) :: l :: r) H V.
(* the data with another graph *)
Definition with_graph (d : node_data) (edges : list (Z * Z)) (w : option (list Q)) : node_data :=
  {| nd_X := nd_X d; nd_width := nd_width d; nd_y := nd_y d; nd_edges := edges; nd_weight := w; nd_train := nd_train d; nd_val := nd_val d; nd_test := nd_test d; nd_unlabeled := nd_unlabeled d |}.
Definition flip (e : edge) : edge := (e_dst e, e_src e, e_w e).
