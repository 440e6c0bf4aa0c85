(* What the walks, their pairs and the training that uses them are supposed to be. *)
From Coq Require Import QArith Qminmax Permutation.
From Verif Require Import Prelude QFacts TsvmSpec N2vModel.
Local Open Scope Z_scope.
Local Open Scope list_scope.
Local Notation length := List.length.

(* a step of a walk from i to j: two different nodes of the graph, joined by an edge *)
Definition linked (edges : list (Z * Z)) (n : Z) (undirected : bool) (i j : Z) : Prop :=
  0 <= i < n /\ 0 <= j < n /\ i <> j /\ (In (i, j) edges \/ (undirected = true /\ In (j, i) edges)).
Definition follows (link : Z -> Z -> Prop) (w : list Z) : Prop :=
  forall k a b, nth_error w k = Some a -> nth_error w (S k) = Some b -> link a b.

(* numpy's generator *)
Definition rng_ok (R : walk_rng) : Prop :=
  (forall st n, 0 < n -> 0 <= fst (wr_integers R st n) < n) /\
  (forall st xs ps, length xs = length ps -> (forall w, In w ps -> (0 <= w)%Q) -> (Qsum ps == 1)%Q ->
     exists k, nth_error xs k = Some (fst (wr_choice R st xs ps)) /\ (0 < nth k ps 0)%Q) /\
  (forall st l, Permutation (fst (wr_shuffle R st l)) l) /\
  (forall st n rows cols dist, 0 < n -> 0 <= rows -> lenZ dist = n -> (forall w, In w dist -> (0 <= w)%Q) -> (Qsum dist == 1)%Q ->
     length (fst (wr_rows R st n rows cols dist)) = Z.to_nat rows /\
     forall r, In r (fst (wr_rows R st n rows cols dist)) -> length r = Z.to_nat cols /\ forall v, In v r -> 0 <= v < n).
Definition pow_ok (pow : Q -> Q) : Prop := forall x, (1 <= x)%Q -> (0 < pow x)%Q.
Definition randperm_ok {T} (randperm : T -> Z -> list Z * T) : Prop := forall t n, Permutation (fst (randperm t n)) (arange n).

(* node2vec: after a step from prev, the weight of x is 1/p for going back, 1 for a neighbour of prev, and 1/q otherwise
   (p and q below 10^-12 count as 10^-12) *)
Section Node2vec.
Variable link : Z -> Z -> Prop.
Variables p q : Q.
Definition at_least_tiny (x : Q) : Q := Qmax x (1 # 1000000000000).
Definition bias (prev x : Z) (w : Q) : Prop :=
  (x = prev -> (w == / at_least_tiny p)%Q) /\ (x <> prev -> link prev x -> (w == 1)%Q) /\ (x <> prev -> ~ link prev x -> (w == / at_least_tiny q)%Q).
(* ps are the probabilities of the nodes of xs, proportional to their weights *)
Definition biased (prev : Z) (xs : list Z) (ps : list Q) : Prop :=
  length ps = length xs /\ (Qsum ps == 1)%Q /\ (forall w, In w ps -> (0 < w)%Q) /\
  exists total, (0 < total)%Q /\ forall k x, nth_error xs k = Some x -> exists w, bias prev x w /\ (nth k ps 0 * total == w)%Q.
(* the neighbours of a node in increasing order *)
Definition neighbours (cur : Z) (xs : list Z) : Prop := Sorted.StronglySorted Z.lt xs /\ forall x, In x xs <-> link cur x.
(* a walk with at most k steps to go, at cur, coming from prev (None at the start) *)
Variable R : walk_rng.
Inductive draws : nat -> option Z -> Z -> wr_state R -> list Z -> wr_state R -> Prop :=
| draws_done prev cur st : draws 0 prev cur st [] st
| draws_dead k prev cur st : (forall x, ~ link cur x) -> draws (S k) prev cur st [] st
| draws_uniform k prev cur st xs i st1 x w st2 :
    prev = None \/ (p == 1 /\ q == 1)%Q -> neighbours cur xs -> xs <> [] ->
    wr_integers R st (lenZ xs) = (i, st1) -> nth_error xs (Z.to_nat i) = Some x -> draws k (Some cur) x st1 w st2 -> draws (S k) prev cur st (x :: w) st2
| draws_biased k prev cur st xs ps x st1 w st2 :
    ~ (p == 1 /\ q == 1)%Q -> neighbours cur xs -> xs <> [] -> biased prev xs ps ->
    wr_choice R st xs ps = (x, st1) -> draws k (Some cur) x st1 w st2 -> draws (S k) (Some prev) cur st (x :: w) st2.
(* the walks: node by node, num walks from each node that has a neighbour *)
Inductive walks_drawn (steps : nat) : list Z -> wr_state R -> list (list Z) -> wr_state R -> Prop :=
| wd_nil st : walks_drawn steps [] st [] st
| wd_cons s r st w st1 ws st2 : draws steps None s st w st1 -> walks_drawn steps r st1 ws st2 -> walks_drawn steps (s :: r) st ((s :: w) :: ws) st2.
End Node2vec.

(* ---- training *)
(* the positions of two different nodes of a walk at most window apart *)
Definition close_by (walks : list (list Z)) (window : Z) (t : nat * nat * nat) : Prop :=
  let '(a, i, j) := t in (a < length walks)%nat /\ (i < length (nth a walks []))%nat /\ (j < length (nth a walks []))%nat /\ i <> j /\ Z.abs (Z.of_nat i - Z.of_nat j) <= window.
Definition pair_at (walks : list (list Z)) (t : nat * nat * nat) : Z * Z :=
  let '(a, i, j) := t in (nth i (nth a walks []) 0, nth j (nth a walks []) 0).

(* the batches of one epoch: every pair once, in batches of B *)
Definition an_epoch (pairs : list (Z * Z)) (B : Z) (bs : list batch) : Prop :=
  exists order, Permutation order pairs /\ cut (Z.to_nat B) order (map (fun b => combine (ba_centers b) (ba_contexts b)) bs) /\
    forall b, In b bs -> length (ba_centers b) = length (ba_contexts b).
Definition negatives_ok (n num : Z) (b : batch) : Prop :=
  length (ba_negatives b) = length (ba_centers b) /\ forall r, In r (ba_negatives b) -> length r = Z.to_nat num /\ forall v, In v r -> 0 <= v < n.
(* the labelled part of a batch: different training nodes, as many as fit, with their labels *)
Definition labelled_ok (train : list bool) (y : list Z) (sup : Z) (b : batch) : Prop :=
  NoDup (ba_nodes b) /\ (forall v, In v (ba_nodes b) -> 0 <= v /\ nth (Z.to_nat v) train false = true) /\
  lenZ (ba_nodes b) = Z.min (lenZ (filter (fun x => x) train)) sup /\ ba_labels b = map (fun v => nth (Z.to_nat v) y 0) (ba_nodes b).
