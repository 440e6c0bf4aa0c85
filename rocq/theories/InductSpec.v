(* Vocabulary for the inductive properties, written without the model's functions. *)
From Coq Require Import List ZArith Lia Bool QArith Permutation Sorted.
Import ListNotations.
Open Scope Z_scope.

(* The confidence of a row of class scores is its largest score.  "The confidence reaches t" and
   "the confidence of r1 is at most that of r2", without computing a maximum: *)
Definition reaches (t : option Q) (r : list Q) : Prop :=
  match t with None => True | Some q => exists x, In x r /\ (q <= x)%Q end.
Definition not_more_confident (r1 r2 : list Q) : Prop :=
  forall x, In x r1 -> exists y, In y r2 /\ (x <= y)%Q.

(* c is the class predicted by a row of scores: largest score, lowest column on ties. *)
Definition predicts (r : list Q) (c : nat) : Prop :=
  (c < length r)%nat /\
  (forall j, (j < length r)%nat -> (nth j r 0 <= nth c r 0)%Q) /\
  (forall j, (j < c)%nat -> (nth j r 0 < nth c r 0)%Q).

Definition meets (t : option Q) (x : Q) : Prop := match t with None => True | Some q => (q <= x)%Q end.

(* Contract of np.argsort(keys): all positions once, by increasing key. *)
Definition sorts_positions (argsort : list Q -> list nat) : Prop := forall keys,
  Permutation (argsort keys) (seq 0 (length keys)) /\
  forall i j, (i < j < length keys)%nat ->
    (nth (nth i (argsort keys) 0%nat) keys 0 <= nth (nth j (argsort keys) 0%nat) keys 0)%Q.

(* Contract of torch.topk(keys, k).indices for 0 <= k <= len(keys): k distinct positions, none of
   the others holding a larger key. *)
Definition picks_largest (topk : list Q -> nat -> list nat) : Prop := forall keys k,
  (k <= length keys)%nat ->
  length (topk keys k) = k /\ NoDup (topk keys k) /\
  (forall i, In i (topk keys k) -> (i < length keys)%nat) /\
  (forall i j, In i (topk keys k) -> (j < length keys)%nat -> ~ In j (topk keys k) ->
     (nth j keys 0 <= nth i keys 0)%Q).

(* What "the most confident rows reaching the threshold, at most max_new of them" means. *)
Definition confident_selection (thr : option Q) (max_new : option Z) (scores : list (list Q))
    (sel : list nat) : Prop :=
  NoDup sel /\
  (forall i, In i sel -> (i < length scores)%nat /\ reaches thr (nth i scores [])) /\
  (forall m, max_new = Some m -> Z.of_nat (length sel) <= m) /\
  (forall j, (j < length scores)%nat -> reaches thr (nth j scores []) -> ~ In j sel ->
     exists m, max_new = Some m /\ Z.of_nat (length sel) = m /\
       forall i, In i sel -> not_more_confident (nth j scores []) (nth i scores [])).

(* What "the k best rows of every predicted class that meet the threshold" means. *)
Definition top_per_class_selection (k : nat) (thr : option Q) (scores : list (list Q))
    (sel : list nat) : Prop :=
  StronglySorted lt sel /\
  (forall i, In i sel -> (i < length scores)%nat /\
     exists c, predicts (nth i scores []) c /\ meets thr (nth c (nth i scores []) 0%Q)) /\
  (forall c ids, NoDup ids -> incl ids sel ->
     (forall i, In i ids -> predicts (nth i scores []) c) -> (length ids <= k)%nat) /\
  (forall j c, (j < length scores)%nat -> predicts (nth j scores []) c ->
     meets thr (nth c (nth j scores []) 0%Q) -> ~ In j sel ->
     exists ids, NoDup ids /\ length ids = k /\
       forall i, In i ids -> In i sel /\ predicts (nth i scores []) c /\
         (nth c (nth j scores []) 0 <= nth c (nth i scores []) 0)%Q).

(* ----- histories of a training loop -----
   A round takes some of the unlabelled rows, given by their position in the X_u the user passed,
   each with the label it received. *)
Definition batch := list (nat * Z).

Section Histories.
Context {X : Type}.
Variable d : X.

(* the rows of X_u with the given positions *)
Definition at_positions (Xu : list X) (ids : list nat) : list X := map (fun i => nth i Xu d) ids.

(* the positions still unlabelled once those in [taken] are labelled, in increasing order *)
Definition untaken (n : nat) (taken : list nat) : list nat :=
  filter (fun i => if in_dec Nat.eq_dec i taken then false else true) (seq 0 n).

Definition taken_rows (bs : list batch) : list nat := map fst (concat bs).

(* the labelled set after the first k rounds *)
Definition training_set (Xl : list X) (yl : list Z) (Xu : list X) (bs : list batch) (k : nat)
    : list X * list Z :=
  (Xl ++ at_positions Xu (taken_rows (firstn k bs)), yl ++ map snd (concat (firstn k bs))).

(* the unlabelled set after the first k rounds *)
Definition pool_positions (Xu : list X) (bs : list batch) (k : nat) : list nat :=
  untaken (length Xu) (taken_rows (firstn k bs)).
Definition pool_after (Xu : list X) (bs : list batch) (k : nat) : list X :=
  at_positions Xu (pool_positions Xu bs k).

(* Rows are only ever moved from the unlabelled to the labelled set, each at most once; the k-th
   call of fit sees the given labelled set followed by what the first k rounds took (calls after
   the last round see the final set); at most [max_iter] rounds and [max_iter] + 1 calls. *)
Definition moves_rows_once (max_iter : nat) (Xl : list X) (yl : list Z) (Xu : list X)
    (bs : list batch) (fits : list (list X * list Z)) (left : list X) : Prop :=
  NoDup (taken_rows bs) /\
  (forall i, In i (taken_rows bs) -> (i < length Xu)%nat) /\
  left = pool_after Xu bs (length bs) /\
  (length bs <= max_iter)%nat /\
  (length bs < length fits <= max_iter + 1)%nat /\
  (forall k, (k < length fits)%nat ->
     nth k fits ([], []) = training_set Xl yl Xu bs (Nat.min k (length bs))).
End Histories.

(* ----- self-training: who gets which label in a round ----- *)

(* conf i is the confidence of row i *)
Definition confidences (scores : list (list Q)) (conf : nat -> Q) : Prop := forall i,
  (i < length scores)%nat ->
  In (conf i) (nth i scores []) /\ forall x, In x (nth i scores []) -> (x <= conf i)%Q.

(* The votes of a group: the labels of its labelled members, each with confidence 1, and the
   predictions for its unlabelled members whose confidence reaches the threshold. *)
Definition votes_of (thr : option Q) (conf : nat -> Q) (pred group_u : list Z)
    (group_l : option (list Z)) (yl : list Z) (g : Z) (votes : list (Z * Q)) : Prop :=
  exists ls us,
    votes = map (fun j => (nth j yl 0, 1%Q)) ls ++ map (fun i => (nth i pred 0, conf i)) us /\
    StronglySorted lt ls /\ StronglySorted lt us /\
    (forall j, In j ls <-> exists gl, group_l = Some gl /\ (j < length gl)%nat /\ nth j gl 0 = g) /\
    (forall i, In i us <-> (i < length group_u)%nat /\ nth i group_u 0 = g /\ meets thr (conf i)).

(* The label most votes name, the smallest one on ties. *)
Definition majority (l : Z) (votes : list Z) : Prop :=
  In l votes /\
  (forall l', (count_occ Z.eq_dec votes l' <= count_occ Z.eq_dec votes l)%nat) /\
  (forall l', count_occ Z.eq_dec votes l' = count_occ Z.eq_dec votes l -> In l' votes -> l <= l').

(* The group names l with confidence c: enough votes, a large enough share for l, and the mean
   confidence of the votes for l meets the group threshold. *)
Definition group_decides (min_count : Z) (min_fraction : Q) (group_thr : option Q)
    (votes : list (Z * Q)) (l : Z) (c : Q) : Prop :=
  min_count <= Z.of_nat (length votes) /\
  majority l (map fst votes) /\
  (min_fraction * inject_Z (Z.of_nat (length votes)) <=
     inject_Z (Z.of_nat (count_occ Z.eq_dec (map fst votes) l)))%Q /\
  (c * inject_Z (Z.of_nat (count_occ Z.eq_dec (map fst votes) l)) ==
     fold_right Qplus 0 (map snd (filter (fun v => if Z.eq_dec (fst v) l then true else false) votes)))%Q /\
  meets group_thr c.

(* Row i may be labelled l with confidence c in this round. *)
Definition may_label (thr : option Q) (min_count : Z) (min_fraction : Q) (group_thr : option Q)
    (conf : nat -> Q) (pred : list Z) (group_u group_l : option (list Z)) (yl : list Z)
    (i : nat) (l : Z) (c : Q) : Prop :=
  (meets thr (conf i) /\ l = nth i pred 0 /\ c = conf i) \/
  (~ meets thr (conf i) /\ exists gu votes, group_u = Some gu /\
     votes_of thr conf pred gu group_l yl (nth i gu 0) votes /\
     group_decides min_count min_fraction group_thr votes l c).

(* The rows labelled in a round, with labels: all those that may be labelled or, when there are more
   than max_new, max_new of them, none less confident than one left out. *)
Definition self_training_selection (thr : option Q) (max_new : option Z) (min_count : Z)
    (min_fraction : Q) (group_thr : option Q) (scores : list (list Q)) (pred : list Z)
    (group_u group_l : option (list Z)) (yl : list Z) (sel : list nat) (labels : list Z) : Prop :=
  exists conf cs,
    confidences scores conf /\ length sel = length labels /\ length sel = length cs /\ NoDup sel /\
    (forall p, (p < length sel)%nat ->
       (nth p sel 0%nat < length scores)%nat /\
       may_label thr min_count min_fraction group_thr conf pred group_u group_l yl
         (nth p sel 0%nat) (nth p labels 0) (nth p cs 0%Q)) /\
    (forall m, max_new = Some m -> Z.of_nat (length sel) <= m) /\
    (forall j l c, (j < length scores)%nat ->
       may_label thr min_count min_fraction group_thr conf pred group_u group_l yl j l c ->
       ~ In j sel ->
       exists m, max_new = Some m /\ Z.of_nat (length sel) = m /\
         forall p, (p < length sel)%nat -> (c <= nth p cs 0)%Q).

(* ----- what each round and the end of a run must look like ----- *)
Section RoundSpecs.
Context {X M : Type}.
Variable d : X.
Variable fit : nat -> list X -> list Z -> M.
Variable scores : M -> list X -> list (list Q).
Variable predict : M -> list X -> list Z.
Variables (Xl : list X) (yl : list Z) (Xu : list X) (bs : list batch).

(* the classifier trained before round k (counting from 0), and the rows it is asked about *)
Definition model_at (k : nat) : M :=
  fit k (fst (training_set d Xl yl Xu bs k)) (snd (training_set d Xl yl Xu bs k)).
Definition scores_at (k : nat) : list (list Q) := scores (model_at k) (pool_after d Xu bs k).

(* Pseudo-labelling, round k: the confident rows of the pool, labelled by the current classifier. *)
Definition pseudo_label_round (thr : Q) (max_new : option Z) (min_new : Z) (k : nat) : Prop :=
  let b := nth k bs [] in
  min_new <= Z.of_nat (length b) /\
  map snd b = predict (model_at k) (at_positions d Xu (map fst b)) /\
  exists sel, confident_selection (Some thr) max_new (scores_at k) sel /\
    map fst b = map (fun p => nth p (pool_positions Xu bs k) 0%nat) sel.

(* It stops because of max_iter, or nothing is left, or too few rows are confident enough. *)
Definition pseudo_label_stop (max_iter : nat) (thr : Q) (max_new : option Z) (min_new : Z) : Prop :=
  length bs = max_iter \/ pool_after d Xu bs (length bs) = [] \/
  exists sel, confident_selection (Some thr) max_new (scores_at (length bs)) sel /\
    Z.of_nat (length sel) < min_new.

(* Self-training, round k. *)
Definition self_training_round (thr : option Q) (max_new : option Z) (min_new min_count : Z)
    (min_fraction : Q) (group_thr : option Q) (group_u group_l : option (list Z)) (k : nat) : Prop :=
  let b := nth k bs [] in
  min_new <= Z.of_nat (length b) /\
  exists sel,
    self_training_selection thr max_new min_count min_fraction group_thr (scores_at k)
      (predict (model_at k) (pool_after d Xu bs k))
      (option_map (fun g => at_positions 0 g (pool_positions Xu bs k)) group_u) group_l yl
      sel (map snd b) /\
    map fst b = map (fun p => nth p (pool_positions Xu bs k) 0%nat) sel.

Definition self_training_stop (max_iter : nat) (thr : option Q) (max_new : option Z)
    (min_new min_count : Z) (min_fraction : Q) (group_thr : option Q)
    (group_u group_l : option (list Z)) : Prop :=
  length bs = max_iter \/ pool_after d Xu bs (length bs) = [] \/
  exists sel labels,
    self_training_selection thr max_new min_count min_fraction group_thr (scores_at (length bs))
      (predict (model_at (length bs)) (pool_after d Xu bs (length bs)))
      (option_map (fun g => at_positions 0 g (pool_positions Xu bs (length bs))) group_u) group_l yl
      sel labels /\
    Z.of_nat (length sel) < min_new.
End RoundSpecs.

(* ----- co-training -----
   A round is a pair: the rows chosen by the first view's classifier with its labels (they go to the
   second view's training set) and the rows chosen by the second view's classifier (they go to the
   first view's). *)
Definition rectangular (scores : list (list Q)) : Prop :=
  forall r1 r2, In r1 scores -> In r2 scores -> length r1 = length r2.

Definition co_rounds := list (batch * batch).
Definition co_taken (rs : co_rounds) : list nat :=
  taken_rows (map fst rs) ++ taken_rows (map snd rs).

Section CoSpecs.
Context {X1 X2 M1 M2 : Type}.
Variables (d1 : X1) (d2 : X2).
Variable fit1 : nat -> list X1 -> list Z -> M1.
Variable fit2 : nat -> list X2 -> list Z -> M2.
Variable scores1 : M1 -> list X1 -> list (list Q).
Variable scores2 : M2 -> list X2 -> list (list Q).
Variable predict1 : M1 -> list X1 -> list Z.
Variable predict2 : M2 -> list X2 -> list Z.
Variables (X1l : list X1) (X2l : list X2) (yl : list Z) (X1u : list X1) (X2u : list X2).
Variable rs : co_rounds.

(* training sets and pool after the first k rounds *)
Definition co_training1 (k : nat) := training_set d1 X1l yl X1u (map snd rs) k.
Definition co_training2 (k : nat) := training_set d2 X2l yl X2u (map fst rs) k.
Definition co_pool (k : nat) : list nat := untaken (length X1u) (co_taken (firstn k rs)).
Definition co_model1 (k : nat) : M1 := fit1 k (fst (co_training1 k)) (snd (co_training1 k)).
Definition co_model2 (k : nat) : M2 := fit2 k (fst (co_training2 k)) (snd (co_training2 k)).

Definition co_moves (max_iter : nat) (fits1 : list (list X1 * list Z)) (fits2 : list (list X2 * list Z))
    (left1 : list X1) (left2 : list X2) : Prop :=
  (* neither view is given a row twice, and a row used in a round is used in no other round *)
  NoDup (taken_rows (map fst rs)) /\ NoDup (taken_rows (map snd rs)) /\
  (forall i, In i (co_taken rs) -> (i < length X1u)%nat) /\
  (forall j k, (j < k < length rs)%nat -> forall i,
     In i (map fst (fst (nth j rs ([], []))) ++ map fst (snd (nth j rs ([], [])))) ->
     ~ In i (map fst (fst (nth k rs ([], []))) ++ map fst (snd (nth k rs ([], []))))) /\
  left1 = at_positions d1 X1u (co_pool (length rs)) /\
  left2 = at_positions d2 X2u (co_pool (length rs)) /\
  (length rs <= max_iter)%nat /\
  (length rs < length fits1 <= max_iter + 1)%nat /\ length fits2 = length fits1 /\
  (forall k, (k < length fits1)%nat ->
     nth k fits1 ([], []) = co_training1 (Nat.min k (length rs)) /\
     nth k fits2 ([], []) = co_training2 (Nat.min k (length rs))).

Definition co_round (K : nat) (thr : option Q) (k : nat) : Prop :=
  let b1 := fst (nth k rs ([], [])) in
  let b2 := snd (nth k rs ([], [])) in
  (b1 <> [] \/ b2 <> []) /\
  (exists sel, top_per_class_selection K thr (scores1 (co_model1 k) (at_positions d1 X1u (co_pool k))) sel /\
     map fst b1 = map (fun p => nth p (co_pool k) 0%nat) sel) /\
  map snd b1 = predict1 (co_model1 k) (at_positions d1 X1u (map fst b1)) /\
  (exists sel, top_per_class_selection K thr (scores2 (co_model2 k) (at_positions d2 X2u (co_pool k))) sel /\
     map fst b2 = map (fun p => nth p (co_pool k) 0%nat) sel) /\
  map snd b2 = predict2 (co_model2 k) (at_positions d2 X2u (map fst b2)).

Definition co_stop (max_iter K : nat) (thr : option Q) : Prop :=
  let k := length rs in
  k = max_iter \/ co_pool k = [] \/
  (top_per_class_selection K thr (scores1 (co_model1 k) (at_positions d1 X1u (co_pool k))) [] /\
   top_per_class_selection K thr (scores2 (co_model2 k) (at_positions d2 X2u (co_pool k))) []).
End CoSpecs.
