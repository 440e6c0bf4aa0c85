(* Vocabulary for tri-training, the wrappers' predictions, S4VM, Setred and democratic co-learning. *)
From Coq Require Import List ZArith Lia Bool QArith Permutation Sorted.
From Verif Require Import InductSpec.
Import ListNotations.
Open Scope Z_scope.

(* ----- tri-training -----
   A round gives to each of the learners 0, 1, 2 some unlabelled rows, each with a label. *)
Definition tri_rounds := list (nat -> batch).

(* what learner i received in the first k rounds *)
Definition received (rs : tri_rounds) (k i : nat) : batch := concat (map (fun r => r i) (firstn k rs)).

Section TriSpecs.
Context {X M : Type}.
Variable d : X.
Variable fit : nat -> nat -> list X -> list Z -> M.
Variable scores : M -> list X -> list (list Q).
Variables (Xl : list X) (yl : list Z) (Xu : list X).
Variable boot : nat -> list nat.     (* the bootstrap sample of each learner *)

(* (Xt, yt) is the training set of learner i after k rounds: its bootstrap sample followed by the
   rows it received, by increasing position. *)
Definition tri_training_set (rs : tri_rounds) (k i : nat) (Xt : list X) (yt : list Z) : Prop :=
  exists ext, Permutation ext (received rs k i) /\ StronglySorted lt (map fst ext) /\
    Xt = map (fun b => nth b Xl d) (boot i) ++ map (fun p => nth (fst p) Xu d) ext /\
    yt = map (fun b => nth b yl 0) (boot i) ++ map snd ext.

(* every learner is fitted once per round and once at the end, at most max_iter + 1 times; it never
   receives a row twice *)
Definition tri_history (rs : tri_rounds) (max_iter : nat) (fits : nat -> list (list X * list Z)) : Prop :=
  (length rs <= max_iter)%nat /\
  forall i, (i < 3)%nat ->
    (length rs < length (fits i) <= max_iter + 1)%nat /\ length (fits i) = length (fits 0%nat) /\
    NoDup (map fst (received rs (length rs) i)) /\
    (forall p, In p (received rs (length rs) i) -> (fst p < length Xu)%nat) /\
    (forall k, (k < length (fits i))%nat ->
       tri_training_set rs (Nat.min k (length rs)) i (fst (nth k (fits i) ([], []))) (snd (nth k (fits i) ([], [])))).

(* the classifier of learner i during round k *)
Definition tri_model (fits : nat -> list (list X * list Z)) (k i : nat) : M :=
  fit i k (fst (nth k (fits i) ([], []))) (snd (nth k (fits i) ([], []))).

(* Row r is one on which the score rows sj and sk agree, both confidently, about column c. *)
Definition agree_on (thr : option Q) (sj sk : list (list Q)) (r c : nat) : Prop :=
  (r < length sj)%nat /\ predicts (nth r sj []) c /\ predicts (nth r sk []) c /\
  reaches thr (nth r sj []) /\ reaches thr (nth r sk []).

(* What learner i gets in a round: rows it does not have on which the other two agree, labelled with
   the column they agree on; all of them, or max_new of them with none less confident (sum of the two
   confidences) than one left out. *)
Definition tri_batch (thr : option Q) (max_new : option Z) (sj sk : list (list Q)) (taken : list nat)
    (b : batch) : Prop :=
  NoDup (map fst b) /\
  (forall r l, In (r, l) b -> ~ In r taken /\ exists c, agree_on thr sj sk r c /\ l = Z.of_nat c) /\
  (forall m, max_new = Some m -> Z.of_nat (length b) <= m) /\
  (forall r c, agree_on thr sj sk r c -> ~ In r taken -> ~ In r (map fst b) ->
     exists m, max_new = Some m /\ Z.of_nat (length b) = m /\
       forall cj ck, confidences sj cj -> confidences sk ck ->
         forall q, In q (map fst b) -> (cj r + ck r <= cj q + ck q)%Q).

Definition tri_round (thr : option Q) (max_new : option Z) (rs : tri_rounds)
    (fits : nat -> list (list X * list Z)) (k : nat) (bs : nat -> batch) : Prop :=
  forall i a b, (i < 3)%nat -> (a < 3)%nat -> (b < 3)%nat -> a <> i -> b <> i -> (a < b)%nat ->
    tri_batch thr max_new (scores (tri_model fits k a) Xu) (scores (tri_model fits k b) Xu)
      (map fst (received rs k i)) (bs i).

(* It stops after max_iter rounds, or when no learner would get a row. *)
Definition tri_stop (thr : option Q) (max_new : option Z) (rs : tri_rounds) (max_iter : nat)
    (fits : nat -> list (list X * list Z)) : Prop :=
  length rs = max_iter \/ tri_round thr max_new rs fits (length rs) (fun _ => []).
End TriSpecs.

(* ----- predictions ----- *)
Definition total (l : list Q) : Q := fold_right Qplus 0%Q l.

(* q is the score a classifier with the given classes_ gives to class c in a row of its scores:
   the entry of c's column, 0 if it does not know the class *)
Definition score_for (classes : list Z) (r : list Q) (c : Z) (q : Q) : Prop :=
  (exists j, (j < length classes)%nat /\ nth j classes 0 = c /\ q = nth j r 0%Q) \/ (~ In c classes /\ q = 0%Q).

(* p is a probability distribution proportional to the non-negative numbers s *)
Definition distribution_of (s p : list Q) : Prop :=
  length p = length s /\ (forall x, In x p -> (0 <= x)%Q) /\ (total p == 1)%Q /\
  forall c, (nth c p 0 * total s == nth c s 0)%Q.

(* ----- Setred ----- *)

(* [shares] splits [all] in proportion to [counts]: it adds up to [all] and each share differs from the
   exact one by less than one *)
Definition splits (all : Z) (counts shares : list Z) : Prop :=
  length shares = length counts /\ fold_right Z.add 0 shares = all /\
  forall j, (j < length counts)%nat ->
    let n := fold_right Z.add 0 counts in
    - n < nth j shares 0 * n - nth j counts 0 * all < n.

(* rows of the pool proposed for editing: at most share(l) rows predicted as l; no row left out is more
   confident than one proposed with the same label *)
Definition proposes (labels shares : list Z) (thr : option Q) (scores : list (list Q)) (pred : list Z)
    (sel : list nat) : Prop :=
  StronglySorted lt sel /\
  (forall i, In i sel -> (i < length scores)%nat /\ In (nth i pred 0) labels /\ reaches thr (nth i scores [])) /\
  (forall j, (j < length labels)%nat -> forall ids, NoDup ids -> incl ids sel ->
     (forall i, In i ids -> nth i pred 0 = nth j labels 0) -> Z.of_nat (length ids) <= Z.max 0 (nth j shares 0)) /\
  (forall r j, (r < length scores)%nat -> (j < length labels)%nat -> nth r pred 0 = nth j labels 0 ->
     reaches thr (nth r scores []) -> ~ In r sel ->
     exists ids, NoDup ids /\ Z.of_nat (length ids) = Z.max 0 (nth j shares 0) /\
       forall i, In i ids -> In i sel /\ nth i pred 0 = nth j labels 0 /\
         not_more_confident (nth r scores []) (nth i scores [])).

(* the elements of l whose verdict is true *)
Definition accepted {A} (l : list A) (verdicts : list bool) : list A :=
  map fst (filter snd (combine l verdicts)).

Section SetredSpecs.
Context {X M : Type}.
Variable d : X.
Variable fit : nat -> list X -> list Z -> M.
Variable scores : M -> list X -> list (list Q).
Variable predict : M -> list X -> list Z.
Variable edit : list X -> list Z -> nat -> list bool.
Variables (Xl : list X) (yl : list Z) (Xu : list X) (bs : list batch).

(* how many rows a round may propose when it looks at n rows *)
Definition budget (max_new : option Z) (n : nat) : Z :=
  Z.max 0 (match max_new with Some v => Z.min v (Z.of_nat n) | None => Z.of_nat n end).

(* Round k looks at distinct rows [ps] of the pool: all of them, or pool_size of them.  It proposes
   [sel] among these, class by class in proportion to the current labels, and [b] is what the filter
   accepts, labelled by the current classifier. *)
Definition setred_round (pool_size max_new : option Z) (thr : option Q) (k : nat) (sel : list nat) (b : batch) : Prop :=
  let Xk := fst (training_set d Xl yl Xu bs k) in
  let yk := snd (training_set d Xl yl Xu bs k) in
  let m := model_at d fit Xl yl Xu bs k in
  let pool := pool_positions Xu bs k in
  exists ps labels shares,
    NoDup ps /\ incl ps pool /\
    Z.of_nat (length ps) = (match pool_size with Some p => Z.min p (Z.of_nat (length pool)) | None => Z.of_nat (length pool) end) /\
    StronglySorted Z.lt labels /\ (forall l, In l labels <-> In l yk) /\
    splits (budget max_new (length ps)) (map (fun l => Z.of_nat (count_occ Z.eq_dec yk l)) labels) shares /\
    let pred := predict m (at_positions d Xu ps) in
    proposes labels shares thr (scores m (at_positions d Xu ps)) pred sel /\
    let ids := map (fun p => nth p ps 0%nat) sel in
    let labs := map (fun p => nth p pred 0) sel in
    b = accepted (combine ids labs) (edit (Xk ++ at_positions d Xu ids) (yk ++ labs) (length Xk)).

(* The classifier is fitted on the given labelled set, after every round, and once more at the end. *)
Definition setred_history (max_iter : nat) (fits : list (list X * list Z)) (left : list X) : Prop :=
  NoDup (taken_rows bs) /\ (forall i, In i (taken_rows bs) -> (i < length Xu)%nat) /\
  left = pool_after d Xu bs (length bs) /\ (length bs <= max_iter)%nat /\
  fits = map (training_set d Xl yl Xu bs) (seq 0 (S (length bs))) ++ [training_set d Xl yl Xu bs (length bs)].

(* It stops because of max_iter, or there is nothing to look at, or no row is proposed, or fewer than
   min_new are accepted. *)
Definition setred_stop (max_iter : nat) (pool_size max_new : option Z) (min_new : Z) (thr : option Q) : Prop :=
  length bs = max_iter \/ pool_positions Xu bs (length bs) = [] \/
  (exists p, pool_size = Some p /\ p <= 0) \/
  exists sel b, setred_round pool_size max_new thr (length bs) sel b /\ (sel = [] \/ Z.of_nat (length b) < min_new).
End SetredSpecs.

(* "o <= mu + z * sqrt(v)" for v >= 0, without the irrational number: the inequality holds with every
   rational s standing for the root on the side that makes the right-hand side larger. *)
Definition within_root (o mu z v : Q) : Prop :=
  forall s, (0 <= s)%Q -> ((0 <= z)%Q -> (v <= s * s)%Q) -> ((z < 0)%Q -> (s * s <= v)%Q) -> (o <= mu + z * s)%Q.

(* The cut-edge test for row i with neighbours nbrs, edge weights w, class frequency p of its label and
   quantile z: the weight of the edges to rows with another label is at most its expectation under
   random labelling plus z standard deviations. *)
Definition passes_cut_edge_test (nbrs : list nat) (w : nat -> Q) (y : list Z) (i : nat) (p z : Q) : Prop :=
  nbrs = [] \/
  exists other, (forall j, In j other <-> In j nbrs /\ nth j y 0 <> nth i y 0) /\ NoDup other /\
    within_root (total (map w other)) ((1 - p) * total (map w nbrs)) z (p * (1 - p) * total (map (fun j => w j * w j) nbrs))%Q.

(* ----- S4VM ----- *)

(* lab is pred with the labels of n rows exchanged (a for b), none of these rows being more confident
   than a row left alone *)
Definition flips_least_confident (a b : Z) (conf : list Q) (pred lab : list Z) (n : nat) : Prop :=
  length lab = length pred /\
  exists F, NoDup F /\ length F = n /\ (forall i, In i F -> (i < length pred)%nat) /\
    (forall i, In i F -> nth i pred 0 = a -> nth i lab 0 = b) /\
    (forall i, In i F -> nth i pred 0 = b -> nth i lab 0 = a) /\
    (forall i, ~ In i F -> nth i lab 0 = nth i pred 0) /\
    (forall i j, In i F -> (j < length pred)%nat -> ~ In j F -> (nth i conf 0 <= nth j conf 0)%Q).

(* number of positions where two label lists agree *)
Definition agreements (y p : list Z) : nat :=
  length (filter (fun i => if Z.eq_dec (nth i y 0) (nth i p 0) then true else false) (seq 0 (length y))).

(* ----- further vocabulary for the wrappers' predictions and Setred's graphs ----- *)

(* n rows of non-negative scores, one column per class, the classes in increasing order *)
Definition score_table (n : nat) (cs : list Z) (rows : list (list Q)) : Prop :=
  StronglySorted Z.lt cs /\ length rows = n /\
  forall r, In r rows -> length r = length cs /\ forall x, In x r -> (0 <= x)%Q.

(* l holds the k points nearest to point i among the n - 1 others *)
Definition nearest_points (D : nat -> nat -> Q) (n k i : nat) (l : list nat) : Prop :=
  NoDup l /\ length l = Nat.min k (n - 1)%nat /\ (forall a, In a l -> (a < n)%nat /\ a <> i) /\
  forall a b, In a l -> (b < n)%nat -> b <> i -> ~ In b l -> (D i a <= D i b)%Q.

(* i and j are relative neighbours: no point is closer to both than they are to each other *)
Definition relative_neighbours (D : nat -> nat -> Q) (n i j : nat) : Prop :=
  i <> j /\ (i < n)%nat /\ (j < n)%nat /\
  forall k, (k < n)%nat -> ~ ((D i k < D i j)%Q /\ (D j k < D i j)%Q).
