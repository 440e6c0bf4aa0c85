From Coq Require Import List ZArith Lia Bool QArith Permutation Sorted Lqa ZifyBool ZifyNat.
From Verif Require Import Prelude ListFacts QFacts InductModel InductSpec.
Import ListNotations.
Open Scope Z_scope.

(* ----- maxima ----- *)
Lemma row_max_from_spec r : forall m,
  In (row_max_from m r) (m :: r) /\ forall x, In x (m :: r) -> (x <= row_max_from m r)%Q.
Proof.
  induction r as [|y r IH]; intros m; cbn [row_max_from].
  - split; [now left|]. intros x [<-|[]]. lra.
  - destruct (Qle_bool y m) eqn:E.
    + destruct (IH m) as [I L]. split.
      * destruct I as [<-|I]; [now left|right; now right].
      * intros x [<-|[<-|I']]; [apply L; now left| |apply L; now right].
        apply Qle_bool_iff in E. pose proof (L m (or_introl eq_refl)). lra.
    + destruct (IH y) as [I L]. split.
      * destruct I as [<-|I]; [right; now left|right; now right].
      * intros x [<-|[<-|I']]; [|apply L; now left|apply L; now right].
        assert (~ (y <= m)%Q) by (rewrite <- Qle_bool_iff; congruence).
        pose proof (L y (or_introl eq_refl)). lra.
Qed.

Lemma row_max_spec r m : row_max r = Ok m -> In m r /\ forall x, In x r -> (x <= m)%Q.
Proof.
  destruct r as [|x r]; cbn; [discriminate|]. intros [= <-]. apply row_max_from_spec.
Qed.

Lemma row_maxima_spec scores : forall conf, row_maxima scores = Ok conf ->
  length conf = length scores /\
  forall i, (i < length scores)%nat ->
    In (nth i conf 0%Q) (nth i scores []) /\ forall x, In x (nth i scores []) -> (x <= nth i conf 0)%Q.
Proof.
  induction scores as [|r rest IH]; intros conf H; cbn in H.
  - injection H as <-. split; [reflexivity|]. intros i Hi. cbn in Hi. lia.
  - destruct (row_max r) as [m|] eqn:Em; cbn in H; [|discriminate].
    destruct (row_maxima rest) as [ms|] eqn:E; cbn in H; [|discriminate].
    injection H as <-. destruct (IH ms eq_refl) as [L S]. cbn. split; [lia|].
    intros [|i] Hi; [now apply row_max_spec|]. apply S. lia.
Qed.

Lemma row_maxima_ok scores : (forall r, In r scores -> r <> []) -> exists conf, row_maxima scores = Ok conf.
Proof.
  induction scores as [|r rest IH]; intros H; cbn; [eauto|].
  destruct r as [|x r]; [exfalso; apply (H []); [now left|reflexivity]|]. cbn.
  destruct IH as [ms ->]; [intros r' I; apply H; now right|]. cbn. eauto.
Qed.

Lemma above_meets t x : above t x = true <-> meets t x.
Proof. destruct t; cbn; [apply Qle_bool_iff|tauto]. Qed.

Lemma reaches_max t r m : In m r -> (forall x, In x r -> (x <= m)%Q) -> (reaches t r <-> meets t m).
Proof.
  intros I L. destruct t as [q|]; cbn; [|tauto]. split.
  - intros (x & Ix & Hx). specialize (L x Ix). lra.
  - intros H. eauto.
Qed.

Lemma skipn_tl {A} i : forall l : list A, skipn (S i) l = tl (skipn i l).
Proof. induction i; intros [|a l]; try reflexivity. cbn [skipn]. rewrite <- IHi. reflexivity. Qed.

Lemma argmax_from_spec r : forall full m a i,
  (a < i)%nat -> skipn i full = r -> (i <= length full)%nat -> nth a full 0%Q = m ->
  (forall j, (j < i)%nat -> (nth j full 0 <= m)%Q) ->
  (forall j, (j < a)%nat -> (nth j full 0 < m)%Q) ->
  predicts full (argmax_from m a i r).
Proof.
  induction r as [|x r IH]; intros full m a i Ha Hs Hi Hm Hall Hlt; cbn [argmax_from].
  - assert (length full = i).
    { pose proof (f_equal (@length Q) Hs) as E. rewrite skipn_length in E. cbn in E. lia. }
    split; [lia|]. rewrite Hm. split; [intros j Hj; apply Hall; lia|exact Hlt].
  - assert (Li : (i < length full)%nat).
    { pose proof (f_equal (@length Q) Hs) as E. rewrite skipn_length in E. cbn in E. lia. }
    assert (Hx : nth i full 0%Q = x).
    { rewrite <- (firstn_skipn i full), app_nth2, firstn_length_le, Nat.sub_diag, Hs; try lia.
      - reflexivity.
      - rewrite firstn_length_le; lia. }
    assert (Hs' : skipn (S i) full = r).
    { rewrite skipn_tl, Hs. reflexivity. }
    destruct (Qle_bool x m) eqn:E.
    + apply Qle_bool_iff in E. apply IH; auto; try lia.
      intros j Hj. destruct (Nat.eq_dec j i) as [->|]; [rewrite Hx; exact E|apply Hall; lia].
    + assert (~ (x <= m)%Q) by (rewrite <- Qle_bool_iff; congruence).
      apply IH; auto; try lia.
      * intros j Hj. destruct (Nat.eq_dec j i) as [->|]; [rewrite Hx; lra|].
        assert ((nth j full 0 <= m)%Q) by (apply Hall; lia). lra.
      * intros j Hj. assert ((nth j full 0 <= m)%Q) by (apply Hall; lia). lra.
Qed.

Lemma argmax_predicts r : r <> [] -> predicts r (argmax r).
Proof.
  destruct r as [|x r]; [congruence|]. intros _. unfold argmax. apply argmax_from_spec; cbn; auto; try lia.
  intros j Hj. replace j with 0%nat by lia. lra.
Qed.

Lemma predicts_unique r a b : predicts r a -> predicts r b -> a = b.
Proof.
  intros (A1 & A2 & A3) (B1 & B2 & B3).
  destruct (Nat.lt_trichotomy a b) as [H|[H|H]]; [|exact H|].
  - specialize (B3 a H). specialize (A2 b B1). lra.
  - specialize (A3 b H). specialize (B2 a A1). lra.
Qed.

Lemma argmax_iff r c : r <> [] -> (argmax r = c <-> predicts r c).
Proof.
  intros H. split.
  - intros <-. now apply argmax_predicts.
  - intros P. apply (predicts_unique r); [now apply argmax_predicts|exact P].
Qed.

(* ----- the k largest keys ----- *)
Lemma argsort_desc_picks argsort : sorts_positions argsort ->
  picks_largest (fun keys k => firstn k (rev (argsort keys))).
Proof.
  intros A keys k Hk. destruct (A keys) as [P S].
  assert (L : length (argsort keys) = length keys).
  { rewrite (Permutation_length P). apply seq_length. }
  assert (ND : NoDup (rev (argsort keys))).
  { apply NoDup_rev. apply (NoDup_perm _ _ (Permutation_sym P)). apply seq_NoDup. }
  assert (R : forall i, In i (rev (argsort keys)) <-> (i < length keys)%nat).
  { intros i. rewrite <- in_rev, (perm_In _ _ i P), in_seq. lia. }
  split; [rewrite firstn_length_le; [reflexivity|rewrite rev_length; lia]|].
  rewrite <- (firstn_skipn k (rev (argsort keys))) in ND.
  apply NoDup_app_iff in ND. destruct ND as (N1 & N2 & N3).
  split; [exact N1|]. split.
  - intros i Hi. apply R. rewrite <- (firstn_skipn k). apply in_or_app. now left.
  - intros i j Hi Hj Hn.
    assert (Ij : In j (skipn k (rev (argsort keys)))).
    { apply R in Hj. rewrite <- (firstn_skipn k) in Hj. apply in_app_or in Hj. tauto. }
    apply (In_nth _ _ 0%nat) in Hi. destruct Hi as (a & La & Ea).
    apply (In_nth _ _ 0%nat) in Ij. destruct Ij as (b & Lb & Eb).
    rewrite firstn_length_le in La by (rewrite rev_length; lia).
    rewrite skipn_length, rev_length, L in Lb.
    assert (Ei : nth a (rev (argsort keys)) 0%nat = i).
    { rewrite <- (firstn_skipn k (rev (argsort keys))), app_nth1; [exact Ea|].
      rewrite firstn_length_le; rewrite ?rev_length; lia. }
    assert (Ej : nth (k + b) (rev (argsort keys)) 0%nat = j).
    { rewrite <- (firstn_skipn k (rev (argsort keys))), app_nth2; rewrite firstn_length_le; rewrite ?rev_length; try lia.
      replace (k + b - k)%nat with b by lia. exact Eb. }
    rewrite rev_nth in Ei by lia. rewrite rev_nth in Ej by lia.
    rewrite <- Ei, <- Ej. apply S. lia.
Qed.

Lemma rows_In {A} (dd : A) l sel x : (forall i, In i sel -> (i < length l)%nat) -> In x (rows dd l sel) -> In x l.
Proof.
  intros R H. unfold rows in H. apply in_map_iff in H. destruct H as (i & <- & Hi). apply nth_In. auto.
Qed.

Lemma rows_NoDup {A} (dd : A) l sel : NoDup l -> NoDup sel -> (forall i, In i sel -> (i < length l)%nat) ->
  NoDup (rows dd l sel).
Proof.
  intros Hl Hs R. unfold rows. induction sel as [|i sel IH]; cbn; [constructor|].
  inversion Hs as [|? ? H1 H2]; subst. constructor.
  - intros H. apply in_map_iff in H. destruct H as (j & E & Hj).
    assert (j = i). { apply (proj1 (NoDup_nth l dd) Hl); auto; apply R; [now right|now left]. }
    subst. contradiction.
  - apply IH; auto. intros j Hj. apply R. now right.
Qed.

Lemma rows_length {A} (dd : A) l sel : length (rows dd l sel) = length sel.
Proof. apply map_length. Qed.

Lemma nth_rows {A} (dd : A) l sel p e : (p < length sel)%nat -> nth p (rows dd l sel) dd = nth (nth p sel e) l dd.
Proof.
  intros H. unfold rows. rewrite (nth_indep _ dd ((fun i => nth i l dd) e)) by (rewrite map_length; exact H).
  apply (map_nth (fun i => nth i l dd)).
Qed.

Lemma filter_seq_NoDup f a n : NoDup (filter f (seq a n)).
Proof. apply NoDup_filter, seq_NoDup. Qed.

(* picking the m largest among the eligible positions *)
Lemma pick_eligible pick (key : nat -> Q) (idx : list nat) (m : nat) : picks_largest pick ->
  NoDup idx -> (m <= length idx)%nat ->
  let sel := rows 0%nat idx (pick (map key idx) m) in
  NoDup sel /\ length sel = m /\ incl sel idx /\
  (forall i j, In i sel -> In j idx -> ~ In j sel -> (key j <= key i)%Q).
Proof.
  intros P ND Hm sel. destruct (P (map key idx) m) as (L & N & R & B); [rewrite map_length; exact Hm|].
  rewrite map_length in R, B.
  assert (K : forall a, (a < length idx)%nat -> nth a (map key idx) 0%Q = key (nth a idx 0%nat)).
  { intros a Ha. rewrite (nth_indep _ 0%Q (key 0%nat)) by (rewrite map_length; exact Ha). apply map_nth. }
  repeat split.
  - apply rows_NoDup; auto.
  - unfold sel. rewrite rows_length. exact L.
  - intros x Hx. apply (rows_In 0%nat idx _ x R Hx).
  - intros i j Hi Hj Hn. unfold sel, rows in Hi. apply in_map_iff in Hi. destruct Hi as (a & <- & Ha).
    apply (In_nth _ _ 0%nat) in Hj. destruct Hj as (b & Lb & <-).
    rewrite <- !K by auto. apply B; auto.
    intros Hb. apply Hn. unfold sel, rows. apply in_map_iff. eauto.
Qed.

(* ----- select_confident ----- *)
Lemma selection_core pick thr m scores conf :
  picks_largest pick -> row_maxima scores = Ok conf -> (forall k, m = Some k -> 0 <= k) ->
  let idx := filter (fun i => above thr (nth i conf 0%Q)) (seq 0 (length conf)) in
  confident_selection thr m scores
    (match m with
     | Some k => if k <? lenZ idx then rows 0%nat idx (pick (rows 0%Q conf idx) (Z.to_nat k)) else idx
     | None => idx
     end).
Proof.
  intros P Hc Hm idx. destruct (row_maxima_spec _ _ Hc) as [L S].
  assert (I : forall i, In i idx <-> (i < length scores)%nat /\ reaches thr (nth i scores [])).
  { intros i. unfold idx. rewrite filter_In, in_seq, above_meets, L. cbn. split.
    - intros [Hi Hr]. assert (Hi' : (i < length scores)%nat) by lia. split; [exact Hi'|].
      destruct (S i Hi') as [I1 I2]. now apply (reaches_max thr _ _ I1 I2).
    - intros [Hi Hr]. split; [lia|]. destruct (S i Hi) as [I1 I2]. now apply (reaches_max thr _ _ I1 I2). }
  assert (ND : NoDup idx) by apply filter_seq_NoDup.
  assert (All : forall m', (forall k, m' = Some k -> lenZ idx <= k) -> confident_selection thr m' scores idx).
  { intros m' Hl. split; [exact ND|]. split; [intros i Hi; now apply I|]. split.
    - intros k Hk. specialize (Hl k Hk). unfold lenZ in Hl. exact Hl.
    - intros j Hj Hr Hn. exfalso. apply Hn. now apply I. }
  destruct m as [k|]; [|apply All; discriminate].
  destruct (k <? lenZ idx) eqn:E; [|apply All; intros k' [= <-]; lia].
  specialize (Hm k eq_refl).
  change (rows 0%Q conf idx) with (map (fun i => nth i conf 0%Q) idx).
  destruct (pick_eligible pick (fun i => nth i conf 0%Q) idx (Z.to_nat k) P ND) as (N1 & N2 & N3 & N4).
  { unfold lenZ in E. lia. }
  split; [exact N1|]. split; [intros i Hi; apply I, N3, Hi|]. split; [intros k' [= <-]; lia|].
  intros j Hj Hr Hn. exists k. split; [reflexivity|]. split; [lia|].
  intros i Hi x Hx. exists (nth i conf 0%Q).
  assert (Hi' : (i < length scores)%nat) by (apply I, N3, Hi).
  split; [apply S; exact Hi'|].
  assert ((nth j conf 0 <= nth i conf 0)%Q) by (apply N4; auto; now apply I).
  pose proof (proj2 (S j Hj) x Hx). lra.
Qed.

Lemma py_take_nonneg {A} m (l : list A) : 0 <= m -> py_take m l = firstn (Z.to_nat m) l.
Proof. intros H. unfold py_take. destruct (m <? 0) eqn:E; [lia|reflexivity]. Qed.

Lemma select_confident_spec argsort thr m scores sel :
  sorts_positions argsort -> (forall k, m = Some k -> 0 <= k) ->
  select_confident argsort thr m scores = Ok sel -> confident_selection thr m scores sel.
Proof.
  intros A Hm H. unfold select_confident in H.
  destruct (row_maxima scores) as [conf|] eqn:Ec; cbn [bind] in H; [|discriminate].
  injection H as <-. pose proof (selection_core _ thr m scores conf (argsort_desc_picks _ A) Ec Hm) as S.
  cbv zeta in S. destruct m as [k|]; [|exact S]. rewrite py_take_nonneg by (apply Hm; reflexivity). exact S.
Qed.

Lemma select_confident_torch_spec topk thr m scores sel :
  picks_largest topk -> (forall k, m = Some k -> 0 <= k) ->
  select_confident_torch topk thr m scores = Ok sel -> confident_selection thr m scores sel.
Proof.
  intros P Hm H. unfold select_confident_torch in H.
  destruct (row_maxima scores) as [conf|] eqn:Ec; cbn [bind] in H; [|discriminate].
  pose proof (selection_core _ thr m scores conf P Ec Hm) as S. cbv zeta in S.
  destruct m as [k|]; [|injection H as <-; exact S].
  specialize (Hm k eq_refl).
  destruct (k <? lenZ _) eqn:E in H; rewrite E in S.
  - destruct (k <? 0) eqn:E0; [lia|]. injection H as <-. exact S.
  - injection H as <-. exact S.
Qed.

(* ----- select_top_per_class ----- *)
Lemma sorted_set_In l x : In x (sorted_set l) <-> In x l.
Proof.
  unfold sorted_set. rewrite in_map_iff. split.
  - intros (z & <- & Hz). rewrite uniqueZ_In in Hz. apply in_map_iff in Hz. destruct Hz as (y & <- & Hy).
    now rewrite Nat2Z.id.
  - intros H. exists (Z.of_nat x). split; [apply Nat2Z.id|]. rewrite uniqueZ_In. now apply in_map.
Qed.

Lemma sorted_set_sorted l : StronglySorted lt (sorted_set l).
Proof.
  unfold sorted_set.
  assert (N : forall z, In z (uniqueZ (map Z.of_nat l)) -> 0 <= z).
  { intros z Hz. rewrite uniqueZ_In in Hz. apply in_map_iff in Hz. destruct Hz as (y & <- & _). lia. }
  pose proof (uniqueZ_ascending (map Z.of_nat l)) as A. revert N A. generalize (uniqueZ (map Z.of_nat l)) as u.
  induction u as [|a u IH]; intros N A; cbn; [constructor|]. inversion A as [|? ? A1 A2]; subst.
  constructor; [apply IH; auto; intros z Hz; apply N; now right|].
  apply Forall_forall. intros x Hx. apply in_map_iff in Hx. destruct Hx as (z & <- & Hz).
  rewrite Forall_forall in A2. specialize (A2 z Hz).
  pose proof (N a (or_introl eq_refl)). pose proof (N z (or_intror Hz)). lia.
Qed.

Lemma StronglySorted_lt_NoDup l : StronglySorted lt l -> NoDup l.
Proof.
  induction 1 as [|a l S IH F]; constructor; auto. intros H. rewrite Forall_forall in F. specialize (F a H). lia.
Qed.

Lemma top_core pick k thr scores :
  picks_largest pick -> (forall r, In r scores -> length r = n_columns scores) ->
  top_per_class_selection k thr scores
    (sorted_set (flat_map (fun cls =>
      let members := class_members scores thr cls in
      rows 0%nat members (pick (map (score_at scores cls) members) (Nat.min k (length members))))
      (seq 0 (n_columns scores)))).
Proof.
  intros P W.
  set (chosen := fun cls => let members := class_members scores thr cls in
      rows 0%nat members (pick (map (score_at scores cls) members) (Nat.min k (length members)))).
  assert (NE : forall i c, (i < length scores)%nat -> (c < n_columns scores)%nat -> nth i scores [] <> []).
  { intros i c Hi Hc E. specialize (W (nth i scores []) (nth_In _ _ Hi)). rewrite E in W. cbn in W. lia. }
  assert (Mem : forall cls i, (cls < n_columns scores)%nat ->
    (In i (class_members scores thr cls) <->
     (i < length scores)%nat /\ predicts (nth i scores []) cls /\ meets thr (nth cls (nth i scores []) 0%Q))).
  { intros cls i Hc. unfold class_members. rewrite !filter_In, in_seq, above_meets, Nat.eqb_eq. unfold score_at.
    split.
    - intros ((Hi & Ha) & Hm). split; [lia|]. split; [|exact Hm].
      apply argmax_iff in Ha; [exact Ha|]. apply (NE i cls); lia.
    - intros (Hi & Hp & Hm). split; [split; [lia|]|exact Hm]. apply argmax_iff; [|exact Hp]. apply (NE i cls); lia. }
  assert (NDm : forall cls, NoDup (class_members scores thr cls)).
  { intros cls. unfold class_members. apply NoDup_filter, filter_seq_NoDup. }
  assert (C : forall cls,
    NoDup (chosen cls) /\ length (chosen cls) = Nat.min k (length (class_members scores thr cls)) /\
    incl (chosen cls) (class_members scores thr cls) /\
    forall i j, In i (chosen cls) -> In j (class_members scores thr cls) -> ~ In j (chosen cls) ->
      (score_at scores cls j <= score_at scores cls i)%Q).
  { intros cls. apply pick_eligible; auto. lia. }
  assert (In_sel : forall i, In i (sorted_set (flat_map chosen (seq 0 (n_columns scores)))) <->
     exists cls, (cls < n_columns scores)%nat /\ In i (chosen cls)).
  { intros i. rewrite sorted_set_In, in_flat_map. split.
    - intros (c & Hc & Hi). apply in_seq in Hc. exists c. split; [lia|exact Hi].
    - intros (c & Hc & Hi). exists c. split; [apply in_seq; lia|exact Hi]. }
  split; [apply sorted_set_sorted|]. split.
  { intros i Hi. apply In_sel in Hi. destruct Hi as (c & Hc & Hi).
    apply (proj1 (proj2 (proj2 (C c)))) in Hi. apply Mem in Hi; [|exact Hc].
    destruct Hi as (H1 & H2 & H3). split; [exact H1|]. exists c. auto. }
  split.
  { intros c ids Hn Hincl Hp.
    assert (Sub : incl ids (chosen c)).
    { intros i Hi. pose proof (Hincl i Hi) as Hs. apply In_sel in Hs. destruct Hs as (c' & Hc' & Hi').
      pose proof (proj1 (proj2 (proj2 (C c'))) i Hi') as Hm. apply Mem in Hm; [|exact Hc'].
      assert (c' = c) by (apply (predicts_unique (nth i scores [])); [tauto|apply Hp; exact Hi]).
      now subst. }
    apply (NoDup_incl_length Hn) in Sub. destruct (C c) as (_ & L & _). lia. }
  intros j c Hj Hp Hm Hn.
  assert (Hc : (c < n_columns scores)%nat).
  { destruct Hp as (Hl & _). rewrite (W (nth j scores []) (nth_In _ _ Hj)) in Hl. exact Hl. }
  assert (Hjm : In j (class_members scores thr c)) by (apply Mem; auto).
  assert (Hjn : ~ In j (chosen c)). { intros H. apply Hn, In_sel. eauto. }
  destruct (C c) as (N1 & N2 & N3 & N4).
  exists (chosen c). split; [exact N1|]. split.
  - rewrite N2. destruct (le_lt_dec k (length (class_members scores thr c))) as [Hk|Hk]; [lia|].
    exfalso. apply Hjn. apply (@NoDup_length_incl _ _ (class_members scores thr c) N1); [lia|exact N3|exact Hjm].
  - intros i Hi. split; [apply In_sel; eauto|]. split; [|apply N4; auto].
    apply N3, Mem in Hi; [tauto|exact Hc].
Qed.

Lemma argsort_length argsort keys : sorts_positions argsort -> length (argsort keys) = length keys.
Proof. intros A. destruct (A keys) as [P _]. rewrite (Permutation_length P). apply seq_length. Qed.

Lemma select_top_per_class_spec argsort k thr scores :
  sorts_positions argsort -> 0 <= k -> (forall r, In r scores -> length r = n_columns scores) ->
  top_per_class_selection (Z.to_nat k) thr scores (select_top_per_class argsort k thr scores).
Proof.
  intros A Hk W. pose proof (top_core _ (Z.to_nat k) thr scores (argsort_desc_picks _ A) W) as T.
  unfold select_top_per_class. cbv beta in T.
  erewrite flat_map_ext; [exact T|]. intros cls. cbv zeta. f_equal. rewrite py_take_nonneg by exact Hk.
  set (mm := class_members scores thr cls).
  assert (L : length (rev (argsort (map (score_at scores cls) mm))) = length mm).
  { rewrite rev_length, (argsort_length _ _ A), map_length. reflexivity. }
  destruct (le_lt_dec (Z.to_nat k) (length mm)); [now rewrite Nat.min_l by lia|].
  rewrite Nat.min_r by lia. rewrite !firstn_all2 by lia. reflexivity.
Qed.

Lemma select_top_per_class_torch_spec topk k thr scores sel :
  picks_largest topk -> 0 <= k -> (forall r, In r scores -> length r = n_columns scores) ->
  select_top_per_class_torch topk k thr scores = Ok sel ->
  top_per_class_selection (Z.to_nat k) thr scores sel.
Proof.
  intros P Hk W H. unfold select_top_per_class_torch in H.
  assert (E : (k <? 0) = false) by lia. rewrite E in H. cbn [andb] in H. injection H as <-.
  now apply top_core.
Qed.

(* ----- moving rows from the pool ----- *)
Lemma memN_In i l : memN i l = true <-> In i l.
Proof.
  unfold memN. rewrite existsb_exists. split.
  - intros (x & Hx & E). apply Nat.eqb_eq in E. now subst.
  - intros H. exists i. split; [exact H|apply Nat.eqb_refl].
Qed.

Lemma untaken_In n tk i : In i (untaken n tk) <-> (i < n)%nat /\ ~ In i tk.
Proof.
  unfold untaken. rewrite filter_In, in_seq. destruct (in_dec Nat.eq_dec i tk); cbn; split; intros H.
  - destruct H; discriminate.
  - tauto.
  - split; [lia|assumption].
  - split; [lia|reflexivity].
Qed.

Lemma untaken_nil n : untaken n [] = seq 0 n.
Proof. unfold untaken. apply filter_all. intros x _. reflexivity. Qed.

Lemma seq_sorted a n : StronglySorted lt (seq a n).
Proof.
  revert a. induction n; intros a; cbn; constructor; auto. apply Forall_forall. intros x Hx. apply in_seq in Hx. lia.
Qed.

Lemma untaken_sorted n tk : StronglySorted lt (untaken n tk).
Proof. apply StronglySorted_filter, seq_sorted. Qed.

Lemma sorted_ext l1 : forall l2, StronglySorted lt l1 -> StronglySorted lt l2 ->
  (forall x, In x l1 <-> In x l2) -> l1 = l2.
Proof.
  induction l1 as [|a l1 IH]; intros [|b l2] S1 S2 E.
  - reflexivity.
  - exfalso. apply (proj2 (E b)). now left.
  - exfalso. apply (proj1 (E a)). now left.
  - inversion S1 as [|? ? S1' F1]; inversion S2 as [|? ? S2' F2]; subst. rewrite Forall_forall in F1, F2.
    assert (a = b).
    { destruct (proj1 (E a) (or_introl eq_refl)) as [H|H]; [now symmetry|].
      destruct (proj2 (E b) (or_introl eq_refl)) as [H'|H']; [exact H'|].
      specialize (F1 b H'). specialize (F2 a H). lia. }
    subst b. f_equal. apply IH; auto. intros x. split; intros H.
    + destruct (proj1 (E x) (or_intror H)) as [<-|H']; [|exact H']. specialize (F1 a H). lia.
    + destruct (proj2 (E x) (or_intror H)) as [<-|H']; [|exact H']. specialize (F2 a H). lia.
Qed.

Lemma sorted_map_nth (ids ps : list nat) : StronglySorted lt ids -> StronglySorted lt ps ->
  (forall p, In p ps -> (p < length ids)%nat) -> StronglySorted lt (map (fun p => nth p ids 0%nat) ps).
Proof.
  intros Si. induction 1 as [|p ps S IH F]; intros R; cbn; [constructor|].
  constructor; [apply IH; intros q Hq; apply R; now right|].
  rewrite Forall_forall in *. intros x Hx. apply in_map_iff in Hx. destruct Hx as (q & <- & Hq).
  specialize (F q Hq). pose proof (R p (or_introl eq_refl)) as Rp. pose proof (R q (or_intror Hq)) as Rq.
  clear - Si F Rp Rq. revert p q F Rp Rq. induction Si as [|a ids S IH F']; intros p q Hpq Hp Hq; cbn in *; [lia|].
  destruct q as [|q]; [lia|]. destruct p as [|p].
  - rewrite Forall_forall in F'. apply F'. apply nth_In. lia.
  - apply IH; lia.
Qed.

(* Taking positions [sel] of a pool made of the rows [untaken n tk] of X_u. *)
Lemma rows_of_pool {A} (dd : A) (Xu0 : list A) ids s : (forall p, In p s -> (p < length ids)%nat) ->
  rows dd (at_positions dd Xu0 ids) s = at_positions dd Xu0 (rows 0%nat ids s).
Proof.
  intros Hs. unfold rows, at_positions. rewrite map_map. apply map_ext_in. intros p Hp.
  rewrite (nth_indep _ dd ((fun i => nth i Xu0 dd) 0%nat)) by (rewrite map_length; auto).
  apply (map_nth (fun i => nth i Xu0 dd)).
Qed.

Lemma pool_drop {A} (dd : A) (Xu0 : list A) n tk sel :
  let ids := untaken n tk in
  (forall p, In p sel -> (p < length ids)%nat) ->
  drop_rows dd (at_positions dd Xu0 ids) sel = at_positions dd Xu0 (untaken n (tk ++ rows 0%nat ids sel)).
Proof.
  intros ids R.
  assert (Sids : StronglySorted lt ids) by apply untaken_sorted.
  assert (NDi : NoDup ids) by (apply StronglySorted_lt_NoDup; exact Sids).
  unfold drop_rows. unfold at_positions at 2. rewrite map_length. rewrite rows_of_pool.
  + f_equal. apply sorted_ext.
    * apply sorted_map_nth; [exact Sids|apply StronglySorted_filter, seq_sorted|].
      intros p Hp. apply filter_In in Hp. destruct Hp as [Hp _]. apply in_seq in Hp. lia.
    * apply untaken_sorted.
    * intros x. rewrite untaken_In, in_app_iff. unfold rows at 1. rewrite in_map_iff. split.
      -- intros (p & <- & Hp). apply filter_In in Hp. destruct Hp as [Hp Hn]. apply in_seq in Hp.
         assert (I : In (nth p ids 0%nat) ids) by (apply nth_In; lia).
         apply untaken_In in I. split; [tauto|]. intros [H|H]; [tauto|].
         unfold rows in H. apply in_map_iff in H. destruct H as (q & E & Hq).
         assert (q = p) by (apply (proj1 (NoDup_nth ids 0%nat) NDi); auto; lia). subst q.
         assert (memN p sel = true) by now apply memN_In. rewrite H in Hn. discriminate.
      -- intros (Hx & Hn).
         assert (I : In x ids) by (apply untaken_In; tauto).
         apply (In_nth _ _ 0%nat) in I. destruct I as (p & Lp & E). exists p. split; [exact E|].
         apply filter_In. split; [apply in_seq; lia|].
         destruct (memN p sel) eqn:M; [|reflexivity]. apply memN_In in M. exfalso. apply Hn. right.
         unfold rows. apply in_map_iff. eauto.
  + intros p Hp. apply filter_In in Hp. destruct Hp as [Hp _]. apply in_seq in Hp. lia.
Qed.

Lemma pool_rows_NoDup n tk sel :
  NoDup sel -> (forall p, In p sel -> (p < length (untaken n tk))%nat) ->
  NoDup (rows 0%nat (untaken n tk) sel) /\
  (forall i, In i (rows 0%nat (untaken n tk) sel) -> (i < n)%nat /\ ~ In i tk).
Proof.
  intros ND R. split.
  - apply rows_NoDup; auto. apply StronglySorted_lt_NoDup, untaken_sorted.
  - intros i Hi. apply (rows_In 0%nat _ sel i R) in Hi. now apply untaken_In in Hi.
Qed.

Lemma pool_step {A} (dd : A) (Xu0 : list A) tk sel :
  let ids := untaken (length Xu0) tk in
  let taken := rows 0%nat ids sel in
  NoDup sel -> (forall p, In p sel -> (p < length ids)%nat) ->
  rows dd (at_positions dd Xu0 ids) sel = at_positions dd Xu0 taken /\
  drop_rows dd (at_positions dd Xu0 ids) sel = at_positions dd Xu0 (untaken (length Xu0) (tk ++ taken)) /\
  NoDup taken /\ (forall i, In i taken -> (i < length Xu0)%nat /\ ~ In i tk).
Proof.
  intros ids taken ND R. split; [now apply rows_of_pool|]. split; [now apply pool_drop|].
  now apply pool_rows_NoDup.
Qed.

Lemma at_positions_all {A} (dd : A) Xu0 : at_positions dd Xu0 (untaken (length Xu0) []) = Xu0.
Proof. rewrite untaken_nil. apply map_nth_seq. Qed.

Lemma at_positions_length {A} (dd : A) Xu0 ids : length (at_positions dd Xu0 ids) = length ids.
Proof. apply map_length. Qed.
