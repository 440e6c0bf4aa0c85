(* Vocabulary for neighbour graphs. *)
From Verif Require Import Prelude GraphOpsModel KnnModel.
Local Open Scope Z_scope.
Local Open Scope list_scope.

(* what np.argpartition(row, kth=k-1)[:k] promises: k different positions, none of the others is smaller *)
Definition part_ok (part : list dist -> Z -> list Z) : Prop :=
  forall row k, 1 <= k <= lenZ row ->
    NoDup (part row k) /\ lenZ (part row k) = k /\
    (forall j, In j (part row k) -> 0 <= j < lenZ row) /\
    (forall j j', In j (part row k) -> 0 <= j' < lenZ row -> ~ In j' (part row k) ->
       dist_leb (nthZ row j None) (nthZ row j' None) = true).
(* what np.argsort(row) promises *)
Definition argsort_ok (argsort : list dist -> list Z) : Prop :=
  forall row, Permutation (argsort row) (arange (lenZ row)) /\
    StronglySorted (fun a b => dist_leb (nthZ row a None) (nthZ row b None) = true) (argsort row).

(* the out-neighbours of node i, in the order listed, and their distances *)
Definition targets (l : list (edge * Z)) (i : Z) : list Z :=
  map (fun p : edge * Z => snd (fst p)) (filter (fun p : edge * Z => fst (fst p) =? i) l).
Definition lengths (l : list (edge * Z)) (i : Z) : list Z :=
  map snd (filter (fun p : edge * Z => fst (fst p) =? i) l).

(* node j may be a neighbour of node i *)
Definition eligible (n : Z) (include_self : bool) (i j : Z) : Prop :=
  0 <= j < n /\ (include_self = true \/ j <> i).
Definition finite_distances (D : Z -> Z -> dist) (n : Z) (include_self : bool) : Prop :=
  forall i j, 0 <= i < n -> eligible n include_self i j -> exists d, D i j = Some d.

(* what rng.choice(cand, size, replace=False) promises *)
Definition choice_ok (choice : Z -> list Z -> Z -> list Z) : Prop :=
  forall i cand size, 0 <= size <= lenZ cand ->
    (NoDup cand -> NoDup (choice i cand size)) /\ incl (choice i cand size) cand /\
    lenZ (choice i cand size) = size.
(* nodes i and j have a nearest anchor in common *)
Definition shares_anchor (nearest_anchors : Z -> list Z) (i j : Z) : Prop :=
  exists a, In a (nearest_anchors i) /\ In a (nearest_anchors j).
(* what NearestNeighbors.kneighbors(n_neighbors=m) promises for each of the n fitted points: m different
   points with their distances, nearest first, no other point being closer *)
Definition kneighbors_ok (D : Z -> Z -> Z) (n : Z) (neighbors : Z -> Z -> list (Z * Z)) : Prop :=
  forall i m, 0 <= i < n -> 1 <= m <= n ->
    let ids := map fst (neighbors i m) in
    NoDup ids /\ lenZ ids = m /\
    (forall j d, In (j, d) (neighbors i m) -> 0 <= j < n /\ d = D i j) /\
    StronglySorted Z.le (map snd (neighbors i m)) /\
    (forall j j', In j ids -> 0 <= j' < n -> ~ In j' ids -> D i j <= D i j').
(* all points different: every other point is strictly farther than the point itself *)
Definition distinct_points (D : Z -> Z -> Z) (n : Z) : Prop :=
  forall i j, 0 <= i < n -> 0 <= j < n -> i <> j -> D i i < D i j.
(* index.search(q, m) returns m columns *)
Definition search_ok (search : Z -> Z -> list (Z * Z)) : Prop :=
  forall i m, 0 <= m -> lenZ (search i m) <= m.
