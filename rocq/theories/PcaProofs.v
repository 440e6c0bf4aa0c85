(* Lemmas for the linear feature steps. *)
From Coq Require Import QArith Lqa ZifyBool ZifyNat Setoid Morphisms.
From Verif Require Import Prelude QFacts ListFacts TransModel TransProofs TokModel TokSpec TokProofs StepSpec PcaModel PcaSpec.
Local Open Scope Q_scope.
Local Open Scope list_scope.

(* ---- sums ---- *)
Lemma sum_ext n f g : (forall i, (i < n)%nat -> f i == g i) -> sum_to n f == sum_to n g.
Proof. intros H. unfold sum_to. apply Qsum_ext. intros i Hi. apply in_seq in Hi. apply H. lia. Qed.
Lemma sum_ext_eq n f g : (forall i, (i < n)%nat -> f i = g i) -> sum_to n f = sum_to n g.
Proof. intros H. unfold sum_to. f_equal. apply map_ext_in. intros i Hi. apply in_seq in Hi. apply H. lia. Qed.
Lemma sum_plus n f g : sum_to n (fun i => f i + g i) == sum_to n f + sum_to n g.
Proof. apply Qsum_plus. Qed.
Lemma sum_minus n f g : sum_to n (fun i => f i - g i) == sum_to n f - sum_to n g.
Proof. apply Qsum_minus. Qed.
Lemma sum_scale n c f : sum_to n (fun i => c * f i) == c * sum_to n f.
Proof. apply Qsum_scale. Qed.
Lemma sum_scale_r n c f : sum_to n (fun i => f i * c) == sum_to n f * c.
Proof. apply Qsum_scale_r. Qed.
Lemma sum_swap n m (f : nat -> nat -> Q) : sum_to n (fun i => sum_to m (f i)) == sum_to m (fun j => sum_to n (fun i => f i j)).
Proof. unfold sum_to. apply Qsum_swap. Qed.
Lemma sum_le n f g : (forall i, (i < n)%nat -> f i <= g i) -> sum_to n f <= sum_to n g.
Proof. intros H. unfold sum_to. apply Qsum_le. intros i Hi. apply in_seq in Hi. apply H. lia. Qed.
Lemma sum_nonneg n f : (forall i, (i < n)%nat -> 0 <= f i) -> 0 <= sum_to n f.
Proof.
  intros H. unfold sum_to. apply Qsum_nonneg. intros x Hx. apply in_map_iff in Hx as (i & <- & Hi).
  apply in_seq in Hi. apply H. lia.
Qed.
Lemma sum_zero n f : (forall i, (i < n)%nat -> f i == 0) -> sum_to n f == 0.
Proof. intros H. unfold sum_to. apply Qsum_zero. intros i Hi. apply in_seq in Hi. apply H. lia. Qed.
Lemma sum_delta n a f : (a < n)%nat -> sum_to n (fun b => f b * delta a b) == f a.
Proof.
  intros Ha. unfold sum_to. replace (seq 0 n) with (seq 0 a ++ a :: seq (S a) (n - S a)).
  2:{ replace n with (a + S (n - S a))%nat at 2 by lia. rewrite seq_app. reflexivity. }
  rewrite map_app, Qsum_app. cbn [map]. rewrite Qsum_cons.
  rewrite (Qsum_zero (fun b => f b * delta a b) (seq 0 a)).
  2:{ intros x Hx. apply in_seq in Hx. unfold delta. destruct (Nat.eqb_spec a x); [lia|lra]. }
  rewrite (Qsum_zero (fun b => f b * delta a b) (seq (S a) (n - S a))).
  2:{ intros x Hx. apply in_seq in Hx. unfold delta. destruct (Nat.eqb_spec a x); [lia|lra]. }
  unfold delta. rewrite Nat.eqb_refl. lra.
Qed.
Lemma sum_delta_l n a f : (a < n)%nat -> sum_to n (fun b => f b * delta b a) == f a.
Proof.
  intros Ha. rewrite <- (sum_delta n a f Ha). apply sum_ext. intros i _. unfold delta. now rewrite Nat.eqb_sym.
Qed.

Lemma inner_ext d x y x' y' : (forall j, (j < d)%nat -> x j == x' j) -> (forall j, (j < d)%nat -> y j == y' j) -> inner d x y == inner d x' y'.
Proof. intros H1 H2. apply sum_ext. intros j Hj. now rewrite (H1 j Hj), (H2 j Hj). Qed.
Lemma inner_sym d x y : inner d x y == inner d y x.
Proof. apply sum_ext. intros. ring. Qed.
Lemma inner_minus_l d x y z : inner d (fun j => x j - y j) z == inner d x z - inner d y z.
Proof.
  unfold inner. rewrite <- sum_minus. apply sum_ext. intros. ring.
Qed.
Lemma inner_self_nonneg d x : 0 <= inner d x x.
Proof. apply sum_nonneg. intros. nra. Qed.
(* inner product with a combination *)
Lemma inner_comb d r y c (v : nat -> nat -> Q) :
  inner d y (fun j => sum_to r (fun a => c a * v a j)) == sum_to r (fun a => c a * inner d y (v a)).
Proof.
  unfold inner. rewrite (sum_ext d _ (fun j => sum_to r (fun a => y j * (c a * v a j)))).
  2:{ intros j _. rewrite <- sum_scale. reflexivity. }
  rewrite sum_swap. apply sum_ext. intros a _. rewrite <- sum_scale. apply sum_ext. intros. ring.
Qed.
Lemma inner_comb_l d r y c (v : nat -> nat -> Q) :
  inner d (fun j => sum_to r (fun a => c a * v a j)) y == sum_to r (fun a => c a * inner d (v a) y).
Proof. rewrite inner_sym, inner_comb. apply sum_ext. intros a _. now rewrite inner_sym. Qed.

Section Orthonormal.
Variable d r : nat.
Variable v : nat -> nat -> Q.
Hypothesis orth : forall a b, (a < r)%nat -> (b < r)%nat -> inner d (v a) (v b) == delta a b.
Lemma comb_coord c a : (a < r)%nat -> inner d (v a) (fun j => sum_to r (fun b => c b * v b j)) == c a.
Proof using orth.
  intros Ha. rewrite inner_comb. rewrite (sum_ext r _ (fun b => c b * delta a b)).
  - now apply sum_delta.
  - intros b Hb. now rewrite orth.
Qed.
Lemma comb_norm c : inner d (fun j => sum_to r (fun b => c b * v b j)) (fun j => sum_to r (fun b => c b * v b j)) == sum_to r (fun a => c a * c a).
Proof using orth.
  rewrite inner_comb_l. apply sum_ext. intros a Ha. now rewrite comb_coord.
Qed.
Lemma bessel x : sum_to r (fun a => inner d x (v a) * inner d x (v a)) <= inner d x x.
Proof using orth.
  set (c := fun a => inner d x (v a)). set (p := fun j => sum_to r (fun b => c b * v b j)).
  pose proof (inner_self_nonneg d (fun j => x j - p j)) as P.
  rewrite inner_minus_l in P.
  rewrite (inner_sym d x (fun j => x j - p j)), (inner_sym d p (fun j => x j - p j)), !inner_minus_l in P.
  assert (XP : inner d x p == sum_to r (fun a => c a * c a)) by (unfold p; now rewrite inner_comb).
  assert (PX : inner d p x == sum_to r (fun a => c a * c a)) by (rewrite inner_sym; exact XP).
  assert (PP : inner d p p == sum_to r (fun a => c a * c a)) by (unfold p; apply comb_norm).
  rewrite XP, PX, PP in P. unfold c in *. lra.
Qed.
End Orthonormal.

(* ---- lists ---- *)
Lemma nth_seq_map (f : nat -> Q) d j : (j < d)%nat -> nth j (map f (seq 0 d)) 0 = f j.
Proof. intros H. rewrite (nth_map_in _ _ j O) by (rewrite seq_length; exact H). now rewrite seq_nth. Qed.
Lemma combine_as_map {A B C} (f : A * B -> C) (x : list A) (y : list B) d da db :
  length x = d -> length y = d -> map f (combine x y) = map (fun j => f (nth j x da, nth j y db)) (seq 0 d).
Proof.
  revert y d. induction x as [|a x IH]; intros [|b y] d Lx Ly; cbn in Lx, Ly; subst d; try discriminate; [reflexivity|].
  injection Ly as Ly. cbn [combine map length seq nth]. f_equal. rewrite (IH y (length x)) by auto.
  rewrite <- seq_shift, map_map. reflexivity.
Qed.
Lemma dot_inner x y d : length x = d -> length y = d -> dot x y = inner d (coords x) (coords y).
Proof. intros Lx Ly. unfold dot, inner, sum_to. now rewrite (combine_as_map _ x y d 0 0 Lx Ly). Qed.

Section Fit.
Variable d : nat.
Variable chosen : list (list cell).
Lemma impute_is : impute_of d chosen = map (average_known chosen) (seq 0 d).
Proof using. reflexivity. Qed.
Lemma fill_is r : length r = d -> fill (impute_of d chosen) r = map (value chosen r) (seq 0 d).
Proof using.
  intros L. unfold fill. rewrite (combine_as_map _ r _ d None 0 L) by (unfold impute_of; now rewrite map_length, seq_length).
  apply map_ext_in. intros j Hj. apply in_seq in Hj. cbn [fst snd]. unfold value.
  rewrite impute_is, nth_seq_map by lia. reflexivity.
Qed.
Definition mean_of (center : bool) : list Q := if center then map (middle chosen) (seq 0 d) else map (fun _ : nat => 0) (seq 0 d).
Lemma seen_is (center : bool) r : length r = d ->
  (if center then subtract (fill (impute_of d chosen) r) (mean_of center) else fill (impute_of d chosen) r) = map (seen center chosen r) (seq 0 d).
Proof using.
  intros L. unfold mean_of. destruct center; rewrite fill_is by exact L; [|reflexivity].
  unfold subtract. rewrite (combine_as_map _ _ _ d 0 0) by (rewrite map_length, seq_length; reflexivity).
  apply map_ext_in. intros j Hj. apply in_seq in Hj. cbn [fst snd]. rewrite !nth_seq_map by lia. reflexivity.
Qed.
Hypothesis rect : forall r, In r chosen -> length r = d.
Lemma means_is : col_means d (map (fill (impute_of d chosen)) chosen) = map (middle chosen) (seq 0 d).
Proof using rect.
  unfold col_means. apply map_ext_in. intros j Hj. apply in_seq in Hj. unfold Qmean, middle.
  rewrite map_map. unfold lenZ. rewrite map_length. f_equal. f_equal. apply map_ext_in. intros r Hr.
  rewrite fill_is by auto. apply nth_seq_map. lia.
Qed.
Lemma centred_is (center : bool) :
  (if center then map (fun r => subtract r (mean_of center)) (map (fill (impute_of d chosen)) chosen) else map (fill (impute_of d chosen)) chosen)
  = seen_rows center d chosen.
Proof using rect.
  unfold seen_rows. rewrite map_map.
  destruct center; apply map_ext_in; intros r Hr; [apply (seen_is true)|apply (seen_is false)]; auto.
Qed.
End Fit.

Section Pca.
Variable svd : nat -> mat -> mat.
Definition chosen_k (nc : Z) (d : nat) (v : mat) : nat := Z.to_nat (Z.max 1 (Z.min (Z.min nc (lenZ v)) (Z.of_nat d))).
Definition state_of (nc : Z) (center : bool) (d : nat) (chosen : list (list cell)) : pca :=
  let v := svd d (seen_rows center d chosen) in
  {| p_mean := mean_of d chosen center; p_components := firstn (chosen_k nc d v) v; p_impute := impute_of d chosen |}.
Lemma rect_chosen {A} (rows : list (list A)) idx chosen d :
  rectangular d rows -> Forall2 (fun i x => designates rows i x) idx chosen -> forall r, In r chosen -> length r = d.
Proof using.
  intros R F. induction F as [|i x idx xs D F IH]; intros r Hr; [destruct Hr|]. destruct Hr as [<-|Hr]; [|auto].
  destruct D as [_ D]. apply R. eapply nth_error_In, D.
Qed.
Lemma pca_fit_is nc center features raw X idx chosen :
  get_X features raw = Ok X -> rectangular (width X) (body X) -> Forall2 (fun i x => designates (body X) i x) idx chosen ->
  chosen <> [] -> pca_fit svd nc center features raw idx = Ok (state_of nc center (width X) chosen).
Proof using.
  intros G R F N. pose proof (rect_chosen (body X) idx chosen (width X) R F) as RC.
  unfold pca_fit. rewrite G. cbn [bind]. rewrite (proj2 (take_rows_ok (body X) idx chosen) F). cbn [bind].
  destruct chosen as [|r0 rest] eqn:E; [contradiction|]. rewrite <- E in *. clear E.
  pose proof (means_is (width X) chosen RC) as M. pose proof (centred_is (width X) chosen RC center) as C.
  unfold state_of. cbv zeta. rewrite <- C. unfold chosen_k, mean_of in *. destruct center; rewrite ?M; reflexivity.
Qed.
Lemma pca_fit_inv nc center features raw idx st :
  pca_fit svd nc center features raw idx = Ok st ->
  exists X chosen, get_X features raw = Ok X /\ Forall2 (fun i x => designates (body X) i x) idx chosen /\ chosen <> [].
Proof using.
  unfold pca_fit. destruct (get_X features raw) as [X|]; [|discriminate]. cbn [bind].
  destruct (take_rows (body X) idx) as [chosen|] eqn:T; [|discriminate]. cbn [bind]. intros H.
  exists X, chosen. split; [reflexivity|]. split; [now apply take_rows_ok|]. destruct chosen; [discriminate|discriminate].
Qed.
Lemma pca_row_is nc center d chosen r :
  length r = d ->
  pca_row center (state_of nc center d chosen) r = map (dot (map (seen center chosen r) (seq 0 d))) (p_components (state_of nc center d chosen)).
Proof using.
  intros L. unfold pca_row. cbn [p_impute p_mean state_of].
  replace (if center then subtract (fill (impute_of d chosen) r) (mean_of d chosen center) else fill (impute_of d chosen) r)
    with (map (seen center chosen r) (seq 0 d)) by (symmetry; now apply seen_is). reflexivity.
Qed.
End Pca.

(* ---- the loop over chunks ---- *)
Lemma write_slice_prefix {A B} (f : A -> B) (l : list A) start stop out :
  (start <= stop)%nat -> (stop <= length l)%nat -> length out = length l ->
  firstn start out = map f (firstn start l) ->
  let out' := write_slice start stop (map f (slice start stop l)) out in
  length out' = length l /\ firstn stop out' = map f (firstn stop l).
Proof.
  intros H1 H2 L P. cbv zeta. unfold write_slice, slice.
  assert (LS : length (firstn (stop - start) (skipn start l)) = (stop - start)%nat) by (rewrite firstn_length, skipn_length; lia).
  split.
  - rewrite !app_length, map_length, LS, firstn_length, skipn_length. lia.
  - assert (E : firstn stop l = firstn start l ++ firstn (stop - start) (skipn start l)).
    { replace stop with (start + (stop - start))%nat at 1 by lia. rewrite <- (firstn_skipn start l) at 1.
      rewrite firstn_app. rewrite firstn_length. rewrite firstn_firstn.
      replace (Nat.min (start + (stop - start)) start) with start by lia. f_equal. f_equal. lia. }
    rewrite E, map_app, P, app_assoc, firstn_app.
    assert (LL : length (map f (firstn start l) ++ map f (firstn (stop - start) (skipn start l))) = stop).
    { rewrite app_length, !map_length, LS, firstn_length. lia. }
    rewrite LL, Nat.sub_diag, firstn_O, app_nil_r. apply firstn_all2. lia.
Qed.
Lemma chunks_all {A B} (f : A -> B) (l : list A) batch fuel start out :
  (0 < batch)%nat -> (length l <= start + fuel * batch)%nat -> length out = length l ->
  firstn start out = map f (firstn start l) ->
  fold_left (fun Z s => write_slice s (Nat.min (s + batch) (length l)) (map f (slice s (Nat.min (s + batch) (length l)) l)) Z)
    (range_step fuel start (length l) batch) out = map f l.
Proof.
  intros Pb. revert start out. induction fuel as [|fuel IH]; intros start out Bd L P; cbn [range_step].
  - cbn [fold_left]. rewrite !firstn_all2 in P by lia. exact P.
  - destruct (Nat.ltb_spec start (length l)) as [H|H].
    + cbn [fold_left]. set (stop := Nat.min (start + batch) (length l)).
      destruct (write_slice_prefix f l start stop out) as [L' P']; [lia|lia|exact L|exact P|].
      destruct (Nat.le_gt_cases (start + batch) (length l)) as [C|C].
      * assert (E : stop = (start + batch)%nat) by lia. apply IH; [lia|exact L'|]. rewrite E in P' |- *. exact P'.
      * assert (E : stop = length l) by lia. apply IH; [lia|exact L'|].
        rewrite E in *. rewrite firstn_all, firstn_all2 in P' by lia. rewrite !firstn_all2 by lia. exact P'.
    + cbn [fold_left]. rewrite !firstn_all2 in P by lia. exact P.
Qed.

Lemma pca_transform_is center st T empty :
  width T = length (p_mean st) -> length empty = length (body T) ->
  pca_transform center (Some st) (Some T) empty = Ok (map (pca_row center st) (body T)).
Proof.
  intros W L. unfold pca_transform. rewrite W, Nat.eqb_refl, andb_false_r. f_equal.
  assert (Pb : (0 < batch_size)%nat) by (unfold batch_size; lia).
  apply chunks_all; [exact Pb|nia|exact L|reflexivity].
Qed.

Lemma seen_diff center chosen r r' j : seen center chosen r j - seen center chosen r' j == value chosen r j - value chosen r' j.
Proof. unfold seen. destruct center; ring. Qed.
Lemma dist_values center chosen d r r' : inner d (fun j => seen center chosen r j - seen center chosen r' j) (fun j => seen center chosen r j - seen center chosen r' j) == distance2 d (value chosen r) (value chosen r').
Proof. unfold inner, distance2. apply sum_ext. intros j _. rewrite !seen_diff. reflexivity. Qed.

Section Geometry.
Variable svd : nat -> mat -> mat.
Variable nc : Z.
Variable center : bool.
Variable d : nat.
Variable chosen : list (list cell).
Let v := svd d (seen_rows center d chosen).
Let st := state_of svd nc center d chosen.
Let V (a : nat) : nat -> Q := coords (nth a v []).
Let k := length (p_components st).
Lemma k_le : (k <= length v)%nat.
Proof. unfold k. cbn [st state_of p_components]. fold v. rewrite firstn_length. lia. Qed.
Lemma row_len r : length r = d -> length (pca_row center st r) = k.
Proof. intros L. unfold st. rewrite pca_row_is by exact L. rewrite map_length. reflexivity. Qed.
Lemma comp_nth a : (a < k)%nat -> nth a (p_components st) [] = nth a v [].
Proof.
  intros H. unfold k in H. cbn [st state_of p_components] in *. fold v in H |- *. rewrite firstn_length in H.
  symmetry. transitivity (nth a (firstn (chosen_k nc d v) v ++ skipn (chosen_k nc d v) v) []); [now rewrite firstn_skipn|].
  apply app_nth1. rewrite firstn_length. lia.
Qed.
Hypothesis vlen : forall r, In r v -> length r = d.
Lemma row_nth r a : length r = d -> (a < k)%nat -> nth a (pca_row center st r) 0 = inner d (seen center chosen r) (V a).
Proof.
  intros L H. unfold st. rewrite pca_row_is by exact L. fold st.
  rewrite (nth_map_in _ _ a []) by exact H. rewrite comp_nth by exact H.
  rewrite (dot_inner _ _ d).
  - unfold inner, V. apply sum_ext_eq. intros j Hj. unfold coords at 1. now rewrite nth_seq_map.
  - now rewrite map_length, seq_length.
  - apply vlen, nth_In. pose proof k_le. lia.
Qed.
Hypothesis orth : forall a b, (a < length v)%nat -> (b < length v)%nat -> inner d (V a) (V b) == delta a b.
Lemma dist_coords r r' : length r = d -> length r' = d ->
  distance2 k (coords (pca_row center st r)) (coords (pca_row center st r')) ==
  sum_to k (fun a => inner d (fun j => seen center chosen r j - seen center chosen r' j) (V a) * inner d (fun j => seen center chosen r j - seen center chosen r' j) (V a)).
Proof.
  intros L L'. unfold distance2. apply sum_ext. intros a Ha. unfold coords.
  rewrite !row_nth by assumption. rewrite !inner_minus_l. reflexivity.
Qed.
Lemma contraction r r' : length r = d -> length r' = d ->
  distance2 k (coords (pca_row center st r)) (coords (pca_row center st r')) <= distance2 d (value chosen r) (value chosen r').
Proof.
  intros L L'. rewrite dist_coords by assumption. rewrite <- (dist_values center). apply bessel.
  intros a b Ha Hb. pose proof k_le. apply orth; lia.
Qed.

(* the decomposition *)
Variables (U : nat -> nat -> Q) (s : nat -> Q).
Let n := length chosen.
Let R (i : nat) : list cell := nth i chosen [].
Hypothesis Uorth : forall a b, (a < length v)%nat -> (b < length v)%nat -> sum_to n (fun i => U i a * U i b) == delta a b.
Hypothesis sdesc : forall a b, (a <= b)%nat -> (b < length v)%nat -> 0 <= s b <= s a.
Hypothesis fact : forall i j, (i < n)%nat -> (j < d)%nat ->
  seen center chosen (R i) j == sum_to (length v) (fun a => U i a * s a * V a j).
Hypothesis rect : forall r, In r chosen -> length r = d.
Lemma R_len i : (i < n)%nat -> length (R i) = d.
Proof using rect. intros H. apply rect, nth_In. exact H. Qed.
Lemma coordinate i a : (i < n)%nat -> (a < length v)%nat -> inner d (seen center chosen (R i)) (V a) == U i a * s a.
Proof using orth fact.
  intros Hi Ha. rewrite (inner_ext d _ _ (fun j => sum_to (length v) (fun b => U i b * s b * V b j)) (V a)).
  - rewrite inner_sym. apply (comb_coord d (length v) V orth (fun b => U i b * s b) a Ha).
  - intros j Hj. now apply fact.
  - reflexivity.
Qed.
Lemma isometry i i' : k = length v -> (i < n)%nat -> (i' < n)%nat ->
  distance2 k (coords (pca_row center st (R i))) (coords (pca_row center st (R i'))) == distance2 d (value chosen (R i)) (value chosen (R i')).
Proof.
  intros E Hi Hi'. rewrite dist_coords by now apply R_len. rewrite <- (dist_values center). rewrite E.
  set (e := fun a => U i a * s a - U i' a * s a).
  assert (D : forall j, (j < d)%nat -> seen center chosen (R i) j - seen center chosen (R i') j == sum_to (length v) (fun a => e a * V a j)).
  { intros j Hj. rewrite (fact i j), (fact i' j) by assumption. rewrite <- sum_minus. apply sum_ext. intros a _. unfold e. ring. }
  rewrite (inner_ext d _ _ _ _ D D). rewrite (comb_norm d (length v) V orth e).
  apply sum_ext. intros a Ha.
  assert (C : inner d (fun j => seen center chosen (R i) j - seen center chosen (R i') j) (V a) == e a).
  { rewrite (inner_ext d _ (V a) _ (V a) D) by reflexivity. rewrite inner_sym. apply (comb_coord d (length v) V orth e a Ha). }
  rewrite C. reflexivity.
Qed.
Lemma gram_out a b : (a < length v)%nat -> (b < length v)%nat ->
  sum_to n (fun i => inner d (seen center chosen (R i)) (V a) * inner d (seen center chosen (R i)) (V b)) == s a * s b * delta a b.
Proof using orth fact Uorth.
  intros Ha Hb. rewrite (sum_ext n _ (fun i => s a * s b * (U i a * U i b))).
  - rewrite sum_scale. now rewrite Uorth.
  - intros i Hi. rewrite !coordinate by assumption. ring.
Qed.
Lemma spread w m : (m < length v)%nat -> (forall b, (b < m)%nat -> inner d (V b) w == 0) ->
  sum_to n (fun i => inner d (seen center chosen (R i)) w * inner d (seen center chosen (R i)) w) <= s m * s m * inner d w w.
Proof using orth fact Uorth sdesc.
  intros Hm O. set (c := fun a => inner d (V a) w).
  assert (E : forall i, (i < n)%nat -> inner d (seen center chosen (R i)) w == sum_to (length v) (fun a => s a * c a * U i a)).
  { intros i Hi. rewrite (inner_ext d _ w (fun j => sum_to (length v) (fun b => U i b * s b * V b j)) w).
    - rewrite (inner_comb_l d (length v) w (fun b => U i b * s b) V). apply sum_ext. intros a _. unfold c. ring.
    - intros j Hj. now apply fact.
    - reflexivity. }
  rewrite (sum_ext n _ (fun i => sum_to (length v) (fun a => s a * c a * U i a) * sum_to (length v) (fun a => s a * c a * U i a))).
  2:{ intros i Hi. rewrite (E i Hi). reflexivity. }
  change (inner n (fun i => sum_to (length v) (fun a => s a * c a * (fun a i => U i a) a i)) (fun i => sum_to (length v) (fun a => s a * c a * (fun a i => U i a) a i)) <= s m * s m * inner d w w).
  rewrite (comb_norm n (length v) (fun a i => U i a) Uorth (fun a => s a * c a)).
  apply Qle_trans with (sum_to (length v) (fun a => s m * s m * (c a * c a))).
  - apply sum_le. intros a Ha. destruct (Nat.lt_ge_cases a m) as [L|L].
    + unfold c. rewrite (O a L). lra.
    + destruct (sdesc m a L Ha) as [S1 S2].
      assert (P : s a * s a <= s m * s m) by nra.
      assert (Q : 0 <= c a * c a) by nra. nra.
  - rewrite sum_scale. assert (B : sum_to (length v) (fun a => c a * c a) <= inner d w w).
    { rewrite (sum_ext _ _ (fun a => inner d w (V a) * inner d w (V a))).
      - apply bessel. exact orth.
      - intros a _. unfold c. rewrite inner_sym. reflexivity. }
    assert (Q : 0 <= s m * s m) by nra.
    set (x := sum_to (length v) (fun a => c a * c a)) in *. set (y := inner d w w) in *. clearbody x y. nra.
Qed.
End Geometry.

Lemma sum_rows {A} (f : A -> Q) (l : list A) da : Qsum (map f l) = sum_to (length l) (fun i => f (nth i l da)).
Proof. unfold sum_to. f_equal. rewrite <- (map_nth_seq l da) at 1. rewrite map_map. reflexivity. Qed.
(* the coordinates seen from the middle add up to 0 *)
Lemma seen_sum chosen j : chosen <> [] -> Qsum (map (fun r => seen true chosen r j) chosen) == 0.
Proof.
  intros N. unfold seen. rewrite Qsum_minus, Qsum_const. unfold middle. pose proof (lenZ_pos chosen N) as P.
  field. lra.
Qed.

(* ---- whitening ---- *)
Lemma Qsum_div {A} (f : A -> Q) l c : Qsum (map f l) / c == Qsum (map (fun x => f x / c) l).
Proof. unfold Qdiv. symmetry. apply Qsum_scale_r. Qed.
Lemma Qsum_sum_to {A} (f : A -> nat -> Q) (l : list A) m :
  Qsum (map (fun x => sum_to m (f x)) l) == sum_to m (fun a => Qsum (map (fun x => f x a) l)).
Proof. unfold sum_to. apply Qsum_swap. Qed.

Section Zca.
Variable d : nat.
Variable rows : mat.
Hypothesis nonempty : rows <> [].
Let N := inject_Z (lenZ rows).
Lemma N_pos : 0 < N.
Proof using nonempty. now apply lenZ_pos. Qed.
Definition dev (r : list Q) (j : nat) : Q := nth j r 0 - average rows j.
(* the variance along w in terms of the covariance *)
Lemma variance_cov w : variance d rows w == sum_to d (fun i => w i * sum_to d (fun j => covariance rows i j * w j)).
Proof using nonempty.
  pose proof N_pos as P. unfold variance. fold N.
  transitivity (Qsum (map (fun r => sum_to d (fun i => sum_to d (fun j => w i * (dev r i * dev r j) * w j))) rows) / N).
  { unfold Qdiv. apply Qmult_comp; [|reflexivity]. apply Qsum_ext. intros r _.
    change (inner d (dev r) w * inner d (dev r) w == sum_to d (fun i => sum_to d (fun j => w i * (dev r i * dev r j) * w j))).
    unfold inner at 1. rewrite <- sum_scale_r. apply sum_ext. intros i _. unfold inner. rewrite <- sum_scale. apply sum_ext. intros j _. ring. }
  rewrite Qsum_sum_to. unfold Qdiv. rewrite <- sum_scale_r. apply sum_ext. intros i _.
  rewrite Qsum_sum_to. rewrite <- sum_scale_r, <- sum_scale. apply sum_ext. intros j _.
  unfold covariance. fold N. unfold Qdiv.
  transitivity (w i * Qsum (map (fun r => dev r i * dev r j) rows) * w j * / N).
  - apply Qmult_comp; [|reflexivity]. rewrite <- Qsum_scale, <- Qsum_scale_r. reflexivity.
  - unfold dev. ring.
Qed.
Variable s : list Q.
Variable u : mat.
Hypothesis eig : eigh_of d (covariance rows) s u.
Let e (a : nat) : nat -> Q := fun i => entry u i a.
Lemma variance_eig w : variance d rows w == sum_to d (fun a => nth a s 0 * (inner d (e a) w * inner d (e a) w)).
Proof using eig nonempty.
  destruct eig as (_ & _ & _ & C). rewrite variance_cov.
  transitivity (sum_to d (fun i => sum_to d (fun j => sum_to d (fun a => nth a s 0 * (e a i * w i) * (e a j * w j))))).
  { apply sum_ext. intros i Hi. rewrite <- sum_scale. apply sum_ext. intros j Hj. rewrite (C i j Hi Hj).
    rewrite <- sum_scale_r, <- sum_scale. apply sum_ext. intros a _. unfold e. ring. }
  transitivity (sum_to d (fun i => sum_to d (fun a => sum_to d (fun j => nth a s 0 * (e a i * w i) * (e a j * w j))))).
  { apply sum_ext. intros i _. apply sum_swap. }
  rewrite sum_swap. apply sum_ext. intros a _.
  transitivity (sum_to d (fun i => nth a s 0 * (e a i * w i) * inner d (e a) w)).
  { apply sum_ext. intros i _. rewrite sum_scale. reflexivity. }
  rewrite sum_scale_r. rewrite sum_scale. unfold inner at 2. ring.
Qed.
Lemma orth_cols a b : (a < d)%nat -> (b < d)%nat -> inner d (e a) (e b) == delta a b.
Proof using eig. apply eig. Qed.
Lemma eig_variance a : (a < d)%nat -> variance d rows (e a) == nth a s 0.
Proof using eig nonempty.
  intros Ha. rewrite variance_eig.
  rewrite (sum_ext d _ (fun b => nth b s 0 * delta b a)); [now apply sum_delta_l|].
  intros b Hb. rewrite !orth_cols by assumption. unfold delta. destruct (Nat.eqb b a); ring.
Qed.
Lemma variance_nonneg w : 0 <= variance d rows w.
Proof using nonempty.
  pose proof N_pos as P. unfold variance. fold N. apply Qle_shift_div_l; [exact P|]. rewrite Qmult_0_l.
  apply Qsum_nonneg. intros x Hx. apply in_map_iff in Hx as (r & <- & _). nra.
Qed.
Lemma eig_nonneg a : (a < d)%nat -> 0 <= nth a s 0.
Proof using eig nonempty. intros Ha. rewrite <- eig_variance by exact Ha. apply variance_nonneg. Qed.
(* the eigenvectors are complete *)
Lemma parseval w : sum_to d (fun a => inner d (e a) w * inner d (e a) w) == inner d w w.
Proof using eig.
  destruct eig as (_ & _ & Ro & _).
  transitivity (sum_to d (fun a => sum_to d (fun i => sum_to d (fun j => w i * w j * (entry u i a * entry u j a))))).
  { apply sum_ext. intros a _. unfold inner at 1. rewrite <- sum_scale_r. apply sum_ext. intros i _.
    unfold inner. rewrite <- sum_scale. apply sum_ext. intros j _. unfold e. ring. }
  rewrite sum_swap. unfold inner. apply sum_ext. intros i Hi. rewrite sum_swap.
  transitivity (sum_to d (fun j => w i * w j * delta i j)).
  { apply sum_ext. intros j Hj. rewrite sum_scale. now rewrite (Ro i j Hi Hj). }
  apply (sum_delta d i (fun j => w i * w j) Hi).
Qed.

Variable inv : nat -> Q.
Let W (i j : nat) : Q := sum_to d (fun a => entry u i a * inv a * entry u j a).
Definition whitened (x : nat -> Q) (j : nat) : Q := sum_to d (fun i => x i * sum_to d (fun a => entry u i a * inv a * entry u j a)).
Lemma whitened_eig x j : whitened x j == sum_to d (fun a => inv a * inner d x (e a) * e a j).
Proof using.
  unfold whitened. transitivity (sum_to d (fun i => sum_to d (fun a => inv a * (x i * e a i) * e a j))).
  { apply sum_ext. intros i _. rewrite <- sum_scale. apply sum_ext. intros a _. unfold e. ring. }
  rewrite sum_swap. apply sum_ext. intros a _. unfold inner. rewrite <- sum_scale, <- sum_scale_r. reflexivity.
Qed.
Lemma whitened_inner x w : inner d (whitened x) w == sum_to d (fun a => inv a * inner d x (e a) * inner d (e a) w).
Proof using.
  rewrite (inner_ext d _ w (fun j => sum_to d (fun a => inv a * inner d x (e a) * e a j)) w).
  - apply inner_comb_l.
  - intros j _. apply whitened_eig.
  - reflexivity.
Qed.
(* the same as measuring along another direction *)
Let turned (w : nat -> Q) (i : nat) : Q := sum_to d (fun a => inv a * inner d (e a) w * e a i).
Lemma whitened_turned x w : inner d (whitened x) w == inner d x (turned w).
Proof using.
  rewrite whitened_inner. unfold turned. rewrite (inner_comb d d x (fun a => inv a * inner d (e a) w) e).
  apply sum_ext. intros a _. ring.
Qed.
Lemma variance_turned w : variance d rows (turned w) == sum_to d (fun a => nth a s 0 * (inv a * inv a) * (inner d (e a) w * inner d (e a) w)).
Proof using eig nonempty.
  rewrite variance_eig. apply sum_ext. intros a Ha.
  unfold turned. rewrite (comb_coord d d e orth_cols (fun b => inv b * inner d (e b) w) a Ha). ring.
Qed.
End Zca.

Section ZcaStep.
Variable eigh : nat -> mat -> list Q * mat.
Variable isqrt : Q -> Q.
Definition clamp0 (q : Q) : Q := if Qle_bool q 0 then 0 else q.
Definition inv_of (eps : Q) (s : list Q) : list Q := map (fun q => isqrt (clamp0 q + eps)) s.
Definition cov_of (d : nat) (chosen : mat) : mat :=
  tabulate d d (fun i j =>
    Qsum (map (fun r => nth i r 0 * nth j r 0) (map (fun r => subtract r (col_means d chosen)) chosen)) / inject_Z (Z.max 1 (lenZ chosen))).
Definition zstate (d : nat) (eps : Q) (chosen : mat) (sh : list nat) : zca :=
  let su := eigh d (cov_of d chosen) in
  {| z_mean := col_means d chosen;
     z_W := tabulate d d (fun i j => Qsum (map (fun a => entry (snd su) i a * nth a (inv_of eps (fst su)) 0 * entry (snd su) j a) (seq 0 d)));
     z_shape := sh |}.
Lemma zca_fit_ok eps mf raw idx st :
  zca_fit eigh isqrt eps mf raw idx = Ok st <->
  exists X chosen, raw = Some X /\ row_shape X <> [] /\ Forall2 (fun i x => designates (flat X) i x) idx chosen /\
    chosen <> [] /\ (Z.of_nat (row_cells X) <= mf)%Z /\ st = zstate (row_cells X) eps chosen (row_shape X).
Proof using.
  unfold zca_fit. destruct raw as [X|]; [|split; [discriminate|intros (X & c & H & _); discriminate]].
  destruct (row_shape X) as [|x0 sh] eqn:SH.
  { split; [discriminate|]. intros (X' & c & [= <-] & H & _). contradiction. }
  rewrite <- SH. destruct (take_rows (flat X) idx) as [chosen|] eqn:T; cbn [bind].
  2:{ split; [discriminate|]. intros (X' & c & [= <-] & _ & H & _). apply take_rows_ok in H. congruence. }
  pose proof (proj1 (take_rows_ok (flat X) idx chosen) T) as F.
  destruct chosen as [|r0 rest] eqn:E.
  { split; [discriminate|]. intros (X' & c & [= <-] & _ & H & N & _). apply take_rows_ok in H. congruence. }
  rewrite <- E in *.
  destruct (Z.ltb_spec mf (Z.of_nat (row_cells X))) as [L|L].
  { split; [discriminate|]. intros (X' & c & [= <-] & _ & H & N & L2 & _). lia. }
  cbv zeta. fold (cov_of (row_cells X) chosen). destruct (eigh (row_cells X) (cov_of (row_cells X) chosen)) as [s u] eqn:EU.
  assert (ST : zstate (row_cells X) eps chosen (row_shape X) =
     {| z_mean := col_means (row_cells X) chosen;
        z_W := tabulate (row_cells X) (row_cells X) (fun i j => Qsum (map (fun a => entry u i a * nth a (map (fun q => isqrt ((if Qle_bool q 0 then 0 else q) + eps)) s) 0 * entry u j a) (seq 0 (row_cells X))));
        z_shape := row_shape X |}).
  { unfold zstate. rewrite EU. reflexivity. }
  rewrite <- ST. split.
  - intros [= <-]. exists X, chosen. split; [reflexivity|]. split; [congruence|]. split; [exact F|]. split; [subst; discriminate|]. split; [lia|reflexivity].
  - intros (X' & c & [= <-] & _ & H & N & L2 & ->). apply take_rows_ok in H. congruence.
Qed.
Lemma means_average d rows : col_means d rows = map (average rows) (seq 0 d).
Proof using. unfold col_means. apply map_ext. intros j. unfold Qmean, average, lenZ. now rewrite map_length. Qed.
Lemma subtract_nth d rows r j : length r = d -> (j < d)%nat -> nth j (subtract r (col_means d rows)) 0 = dev rows r j.
Proof using.
  intros L Hj. unfold subtract. rewrite (combine_as_map _ _ _ d 0 0 L) by (unfold col_means; now rewrite map_length, seq_length).
  rewrite nth_seq_map by exact Hj. cbn [fst snd]. rewrite means_average, nth_seq_map by exact Hj. reflexivity.
Qed.
Lemma cov_entry d chosen i j : (forall r, In r chosen -> length r = d) -> chosen <> [] -> (i < d)%nat -> (j < d)%nat ->
  entry (cov_of d chosen) i j == covariance chosen i j.
Proof using.
  clear eigh isqrt. intros R N Hi Hj. unfold cov_of. rewrite entry_tabulate by assumption. rewrite map_map. unfold covariance.
  replace (Z.max 1 (lenZ chosen)) with (lenZ chosen) by (unfold lenZ; destruct chosen; [contradiction|cbn; lia]).
  unfold Qdiv. apply Qmult_comp; [|reflexivity]. apply Qsum_ext. intros r Hr.
  rewrite !(subtract_nth d) by auto. unfold dev. reflexivity.
Qed.
Lemma zca_transform_ok d eps chosen sh T out :
  zca_transform (Some (zstate d eps chosen sh)) (Some T) = Ok out <->
  row_shape T <> [] /\ flat T <> [] /\ row_cells T = d /\
  out = {| row_shape := sh; flat := map (fun r => map (fun j => Qsum (map (fun i => nth i (subtract r (col_means d chosen)) 0 * entry (z_W (zstate d eps chosen sh)) i j) (seq 0 d))) (seq 0 d)) (flat T) |}.
Proof using.
  unfold zca_transform. assert (LD : length (z_mean (zstate d eps chosen sh)) = d) by (cbn [zstate z_mean]; unfold col_means; now rewrite map_length, seq_length).
  rewrite LD. change (z_mean (zstate d eps chosen sh)) with (col_means d chosen). change (z_shape (zstate d eps chosen sh)) with sh.
  destruct (row_shape T) as [|x0 sh0]; [split; [discriminate|intros [H _]; contradiction]|].
  destruct (flat T) as [|r0 rest] eqn:FT; [split; [discriminate|intros (_ & H & _); contradiction]|]. rewrite <- FT.
  destruct (Nat.eqb_spec (row_cells T) d) as [E|E]; cbn [negb].
  - split; [intros [= <-]|intros (_ & _ & _ & ->); reflexivity]. split; [discriminate|]. split; [congruence|]. split; [exact E|reflexivity].
  - split; [discriminate|]. intros (_ & _ & H & _). contradiction.
Qed.
Lemma out_row d eps chosen sh r j :
  let su := eigh d (cov_of d chosen) in
  length r = d -> (j < d)%nat ->
  Qsum (map (fun i => nth i (subtract r (col_means d chosen)) 0 * entry (z_W (zstate d eps chosen sh)) i j) (seq 0 d))
  = whitened d (snd su) (fun a => nth a (inv_of eps (fst su)) 0) (dev chosen r) j.
Proof using.
  cbv zeta. intros L Hj. unfold whitened. unfold sum_to at 1. f_equal. apply map_ext_in. intros i Hi. apply in_seq in Hi.
  rewrite subtract_nth by (assumption || lia). f_equal. cbn [zstate z_W]. rewrite entry_tabulate by lia. reflexivity.
Qed.
End ZcaStep.

Section ZcaVariance.
Variable d : nat.
Variable rows : mat.
Hypothesis nonempty : rows <> [].
Hypothesis rect : forall r, In r rows -> length r = d.
Variables (s : list Q) (u : mat) (inv : nat -> Q).
Hypothesis eig : eigh_of d (covariance rows) s u.
Variable out : mat.
Hypothesis out_is : out = map (fun r => map (fun j => whitened d u inv (dev rows r) j) (seq 0 d)) rows.
Lemma dev_sum j : Qsum (map (fun r => dev rows r j) rows) == 0.
Proof using nonempty.
  unfold dev. rewrite Qsum_minus, Qsum_const. unfold average. pose proof (lenZ_pos rows nonempty). field. lra.
Qed.
Lemma out_average j : (j < d)%nat -> average out j == 0.
Proof using nonempty out_is.
  intros Hj. unfold average. rewrite out_is at 1. rewrite map_map.
  assert (Z : Qsum (map (fun r => nth j (map (fun j => whitened d u inv (dev rows r) j) (seq 0 d)) 0) rows) == 0).
  { rewrite (Qsum_ext _ (fun r => sum_to d (fun i => dev rows r i * sum_to d (fun a => entry u i a * inv a * entry u j a))) rows).
    - rewrite Qsum_sum_to. apply sum_zero. intros i _. rewrite Qsum_scale_r, dev_sum. ring.
    - intros r _. rewrite nth_seq_map by exact Hj. reflexivity. }
  rewrite Z. unfold Qdiv. ring.
Qed.
Lemma out_variance w :
  variance d out w == sum_to d (fun a => nth a s 0 * (inv a * inv a) * (inner d (fun i => entry u i a) w * inner d (fun i => entry u i a) w)).
Proof using nonempty out_is eig.
  rewrite <- (variance_turned d rows nonempty s u eig inv w). unfold variance.
  assert (L : lenZ out = lenZ rows) by (rewrite out_is; unfold lenZ; now rewrite map_length). rewrite L.
  unfold Qdiv. apply Qmult_comp; [|reflexivity]. match goal with |- Qsum (map ?f out) == _ => rewrite (f_equal (map f) out_is) end. rewrite map_map. apply Qsum_ext. intros r _.
  match goal with |- ?a * ?a == ?b * ?b => assert (E : a == b); [|rewrite E; reflexivity] end.
  change (fun j => nth j r 0 - average rows j) with (dev rows r).
  rewrite <- (whitened_turned d u inv (dev rows r) w). apply inner_ext; [|reflexivity].
  intros j Hj. rewrite out_average by exact Hj. rewrite nth_seq_map by exact Hj. ring.
Qed.
End ZcaVariance.
