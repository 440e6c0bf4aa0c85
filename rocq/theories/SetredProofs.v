From Coq Require Import List ZArith Lia Bool QArith Permutation Sorted Qround ZifyBool ZifyNat.
From Verif Require Import Prelude ListFacts QFacts InductModel InductSpec InductProofs InductLoopProofs EnsembleModel EnsembleSpec TriProofs.
Import ListNotations.
Open Scope Z_scope.

Lemma sumZ_fold l : sumZ l = fold_right Z.add 0 l.
Proof. induction l; cbn; lia. Qed.

Lemma update_length {A} (f : A -> A) l : forall i, length (update l i f) = length l.
Proof. induction l; intros [|i]; cbn; auto. Qed.

Lemma update_nth (f : Z -> Z) l : forall i j, (i < length l)%nat -> nth j (update l i f) 0 = if Nat.eqb i j then f (nth j l 0) else nth j l 0.
Proof.
  induction l as [|a l IH]; intros [|i] [|j] H; cbn in *; try lia; try reflexivity. apply IH. lia.
Qed.

Lemma update_sum l : forall i, (i < length l)%nat -> sumZ (update l i Z.succ) = sumZ l + 1.
Proof. induction l as [|a l IH]; intros [|i] H; cbn in *; try lia. rewrite IH; lia. Qed.

Lemma bump_spec idx : forall base, NoDup idx -> (forall i, In i idx -> (i < length base)%nat) ->
  let r := fold_left (fun b i => update b i Z.succ) idx base in
  length r = length base /\ sumZ r = sumZ base + lenZ idx /\
  forall j, nth j r 0 = nth j base 0 + (if memN j idx then 1 else 0).
Proof.
  induction idx as [|i idx IH]; intros base N R; cbn [fold_left].
  - cbv zeta. split; [reflexivity|]. split; [cbn; lia|]. intros j. cbn. lia.
  - inversion N as [|? ? N1 N2]; subst. pose proof (R i (or_introl eq_refl)) as Ri.
    destruct (IH (update base i Z.succ) N2) as (A & B & C).
    { intros j Hj. rewrite update_length. apply R. now right. }
    cbv zeta in *. rewrite update_length in A. split; [exact A|]. split.
    + rewrite B, update_sum by exact Ri. unfold lenZ. cbn [length]. lia.
    + intros j. rewrite C, update_nth by exact Ri. cbn [memN existsb].
      destruct (Nat.eqb_spec i j) as [->|Hne].
      * assert (memN j idx = false). { destruct (memN j idx) eqn:E; [|reflexivity]. apply memN_In in E. contradiction. }
        fold (memN j idx). rewrite H, Nat.eqb_refl. cbn. lia.
      * fold (memN j idx). replace (Nat.eqb j i) with false by (symmetry; apply Nat.eqb_neq; congruence). cbn. lia.
Qed.

Lemma Qfloor_share c n t : 0 < n -> Qfloor (inject_Z c / inject_Z n * inject_Z t) = (c * t) / n.
Proof.
  intros H. rewrite <- (Qfloor_comp ((c * t) # (Z.to_pos n))).
  - unfold Qfloor. rewrite Z2Pos.id by exact H. reflexivity.
  - unfold Qeq, Qdiv, Qmult, Qinv, inject_Z. destruct n as [|p|p]; try lia. cbn. lia.
Qed.

Lemma frac_share c n t : 0 < n ->
  (inject_Z c / inject_Z n * inject_Z t - inject_Z (Qfloor (inject_Z c / inject_Z n * inject_Z t)) == ((c * t) mod n) # (Z.to_pos n))%Q.
Proof.
  intros H. rewrite Qfloor_share by exact H. pose proof (Z.div_mod (c * t) n ltac:(lia)) as E.
  set (q := c * t / n) in *. set (r := (c * t) mod n) in *. clearbody q r.
  unfold Qeq, Qminus, Qopp, Qplus, Qdiv, Qmult, Qinv, inject_Z. destruct n as [|p|p]; try lia. cbn. rewrite !Pos.mul_1_r. nia.
Qed.

Lemma sumZ_map_seq_perm (f : nat -> Z) a b : Permutation a b -> sumZ (map f a) = sumZ (map f b).
Proof. induction 1; cbn; lia. Qed.

Lemma nth_map_seq_Z (f : Z -> Z) l j : (j < length l)%nat -> nth j (map f l) 0 = f (nth j l 0).
Proof. intros H. rewrite (nth_indep _ 0 (f 0)) by (rewrite map_length; exact H). apply map_nth. Qed.

Lemma sumZ_as_seq l : sumZ l = sumZ (map (fun i => nth i l 0) (seq 0 (length l))).
Proof. now rewrite map_nth_seq. Qed.

Lemma allocate_splits argsort all counts : sorts_positions argsort ->
  0 < all -> (forall c, In c counts -> 0 <= c) -> 0 < sumZ counts ->
  splits all counts (allocate_per_class argsort all counts).
Proof.
  intros So Ha Hc Hn. set (n := sumZ counts) in *.
  unfold allocate_per_class. fold n. destruct (Z.leb_spec all 0); [lia|]. destruct (Z.leb_spec n 0); [lia|].
  set (raw := map (fun c => inject_Z c / inject_Z n * inject_Z all)%Q counts).
  assert (Eb : map Qfloor raw = map (fun c => (c * all) / n) counts).
  { unfold raw. rewrite map_map. apply map_ext. intros c. now apply Qfloor_share. }
  rewrite Eb. set (base := map (fun c => (c * all) / n) counts).
  assert (Lb : length base = length counts) by apply map_length.
  assert (Nb : forall j, (j < length counts)%nat -> nth j base 0 = (nth j counts 0 * all) / n) by (intros j Hj; now apply (nth_map_seq_Z (fun c => c * all / n))).
  set (rem := fun j => (nth j counts 0 * all) mod n).
  assert (Rb : forall j, 0 <= rem j < n) by (intros j; apply Z.mod_pos_bound; lia).
  assert (Dm : forall j, (j < length counts)%nat -> nth j counts 0 * all = n * nth j base 0 + rem j).
  { intros j Hj. rewrite Nb by exact Hj. unfold rem. apply Z.div_mod. lia. }
  assert (SR : sumZ (map rem (seq 0 (length counts))) = n * (all - sumZ base)).
  { assert (G : forall l, (forall j, In j l -> (j < length counts)%nat) ->
      sumZ (map (fun i => nth i counts 0) l) * all = n * sumZ (map (fun i => nth i base 0) l) + sumZ (map rem l)).
    { clear -Dm. induction l as [|j l IH]; intros Hl; cbn; [lia|].
      specialize (IH (fun x Hx => Hl x (or_intror Hx))). specialize (Dm j (Hl j (or_introl eq_refl))). nia. }
    specialize (G (seq 0 (length counts)) ltac:(intros j Hj; apply in_seq in Hj; lia)). rewrite <- sumZ_as_seq in G. fold n in G.
    assert (Es : sumZ (map (fun i => nth i base 0) (seq 0 (length counts))) = sumZ base) by (rewrite <- Lb; symmetry; apply sumZ_as_seq).
    rewrite Es in G. nia. }
  set (R := all - sumZ base) in *.
  assert (R0 : 0 <= R).
  { assert (0 <= sumZ (map rem (seq 0 (length counts)))).
    { clear -Rb. induction (seq 0 (length counts)); cbn; [lia|]. specialize (Rb a). lia. } nia. }
  destruct (Z.ltb_spec 0 R) as [RP|RP].
  - unfold bump_first.
    set (keys := map (fun q : Q => (q - inject_Z (Qfloor q))%Q) raw).
    assert (Lk : length keys = length counts) by (unfold keys, raw; now rewrite !map_length).
    assert (Kn : forall j, (j < length counts)%nat -> (nth j keys 0 == rem j # (Z.to_pos n))%Q).
    { intros j Hj. unfold keys, raw. rewrite map_map.
      rewrite (nth_indep _ 0%Q ((fun x => inject_Z x / inject_Z n * inject_Z all - inject_Z (Qfloor (inject_Z x / inject_Z n * inject_Z all)))%Q 0)) by (rewrite map_length; exact Hj).
      rewrite (map_nth (fun x => inject_Z x / inject_Z n * inject_Z all - inject_Z (Qfloor (inject_Z x / inject_Z n * inject_Z all)))%Q).
      now apply frac_share. }
    assert (SB : forall l, sumZ (map rem l) <= n * lenZ l).
    { unfold lenZ. clear -Rb. induction l; cbn [map sumZ length]; [lia|]. specialize (Rb a). lia. }
    assert (RL : (Z.to_nat R <= length keys)%nat).
    { specialize (SB (seq 0 (length counts))). rewrite SR in SB. unfold lenZ in SB. rewrite seq_length in SB. rewrite Lk. nia. }
    destruct (argsort_desc_picks argsort So keys (Z.to_nat R) RL) as (PL & PN & PR & PB).
    pose proof (proj1 (So keys)) as Pm.
    set (order := rev (argsort keys)) in *.
    assert (Po : Permutation order (seq 0 (length counts))).
    { unfold order. rewrite <- Lk. apply Permutation_trans with (argsort keys); [apply Permutation_sym, Permutation_rev|exact Pm]. }
    set (idx := firstn (Z.to_nat R) order) in *.
    destruct (bump_spec idx base PN) as (A & B & C).
    { intros i Hi. rewrite Lb, <- Lk. now apply PR. }
    cbv zeta in *. split; [congruence|]. rewrite <- sumZ_fold. split; [rewrite B; unfold lenZ; rewrite PL; lia|].
    intros j Hj. cbv zeta. rewrite <- sumZ_fold. fold n. rewrite C. specialize (Dm j Hj). specialize (Rb j) as Rj.
    destruct (memN j idx) eqn:M; [|nia].
    (* the bumped positions have a positive remainder *)
    apply memN_In in M. destruct (Z.eq_dec (rem j) 0) as [Z0|]; [exfalso|nia].
    assert (Zr : forall i, In i (skipn (Z.to_nat R) order) -> rem i = 0).
    { intros i Hi. assert (Ii : (i < length counts)%nat).
      { assert (In i order) by (rewrite <- (firstn_skipn (Z.to_nat R) order); apply in_or_app; now right).
        apply (perm_In _ _ i Po) in H1. apply in_seq in H1. lia. }
      assert (Ni : ~ In i idx).
      { intros Hi'. assert (ND : NoDup order) by (apply (NoDup_perm _ _ (Permutation_sym Po)), seq_NoDup).
        rewrite <- (firstn_skipn (Z.to_nat R) order) in ND. apply NoDup_app_iff in ND. destruct ND as (_ & _ & D). exact (D i Hi' Hi). }
      specialize (PB j i M ltac:(rewrite Lk; exact Ii) Ni). rewrite (Kn i Ii), (Kn j Hj) in PB.
      unfold Qle in PB. cbn in PB. specialize (Rb i). nia. }
    assert (S1 : sumZ (map rem (seq 0 (length counts))) = sumZ (map rem idx) + sumZ (map rem (skipn (Z.to_nat R) order))).
    { rewrite <- (sumZ_map_seq_perm rem _ _ Po). rewrite <- (firstn_skipn (Z.to_nat R) order) at 1. fold idx. rewrite map_app.
      clear. induction (map rem idx); cbn; lia. }
    assert (S2 : sumZ (map rem (skipn (Z.to_nat R) order)) = 0).
    { clear -Zr. induction (skipn (Z.to_nat R) order); cbn; [reflexivity|]. rewrite (Zr a (or_introl eq_refl)), IHl; [reflexivity|].
      intros i Hi. apply Zr. now right. }
    assert (S3 : sumZ (map rem idx) < n * lenZ idx).
    { clear -M Z0 Rb SB Hn. revert M. induction idx as [|i l IH]; intros M; [destruct M|]. unfold lenZ in *. cbn [map sumZ length].
      destruct M as [->|M]; [specialize (SB l); lia|]. specialize (IH M). specialize (Rb i). lia. }
    rewrite SR, S1, S2 in *. unfold lenZ in S3. rewrite PL in S3. nia.
  - assert (R = 0) by lia. split; [exact Lb|]. rewrite <- sumZ_fold. split; [lia|].
    intros j Hj. cbv zeta. rewrite <- sumZ_fold. fold n. specialize (Dm j Hj). specialize (Rb j). nia.
Qed.

Lemma top_not_more_confident a b : a <> [] -> b <> [] -> (top_score a <= top_score b)%Q -> not_more_confident a b.
Proof.
  intros Ha Hb L x Hx. destruct (top_score_spec a Ha) as [_ A]. destruct (top_score_spec b Hb) as [B _].
  exists (top_score b). split; [exact B|]. eapply Qle_trans; [apply A, Hx|exact L].
Qed.

Lemma nth_combine_Z (a b : list Z) j : length a = length b -> nth j (combine a b) (0, 0) = (nth j a 0, nth j b 0).
Proof. intros H. now apply combine_nth. Qed.

Lemma candidates_core argsort scs pred labels shares thr : sorts_positions argsort ->
  NoDup labels -> length shares = length labels -> length pred = length scs -> (forall r, In r scs -> r <> []) ->
  proposes labels shares thr scs pred
    (sorted_set (flat_map (fun lk : Z * Z =>
      let '(label, k) := lk in
      if k <=? 0 then []
      else
        let idx := filter (fun r => (nth r pred 0 =? label) && above thr (top_score (nth r scs []))) (seq 0 (length pred)) in
        rows 0%nat idx (firstn (Z.to_nat k) (rev (argsort (map (fun r => top_score (nth r scs [])) idx)))))
      (combine labels shares))).
Proof.
  intros So NL LS LP NE.
  set (F := fun lk : Z * Z => let '(label, k) := lk in _).
  set (key := fun r => top_score (nth r scs [])).
  set (idx := fun label => filter (fun r => (nth r pred 0 =? label) && above thr (top_score (nth r scs []))) (seq 0 (length pred))).
  assert (II : forall l r, In r (idx l) <-> (r < length scs)%nat /\ nth r pred 0 = l /\ reaches thr (nth r scs [])).
  { intros l r. unfold idx. rewrite filter_In, in_seq, andb_true_iff, Z.eqb_eq.
    split; intros (A & B & C); (split; [lia|]); (split; [exact B|]).
    - apply reaches_top; [apply NE, nth_In; lia|exact C].
    - apply reaches_top; [apply NE, nth_In; lia|exact C]. }
  assert (FF : forall l k, exists f, F (l, k) = f /\ NoDup f /\ incl f (idx l) /\ length f = Nat.min (Z.to_nat k) (length (idx l)) /\
    forall i j, In i f -> In j (idx l) -> ~ In j f -> (key j <= key i)%Q).
  { intros l k. eexists. split; [reflexivity|]. unfold F. destruct (Z.leb_spec k 0) as [K|K].
    - split; [constructor|]. split; [intros x []|]. split; [replace (Z.to_nat k) with 0%nat by lia; reflexivity|]. intros i j [].
    - fold (idx l). destruct (take_desc argsort key (idx l) k So) as (A & B & C & D); [apply filter_seq_NoDup|lia|].
      rewrite py_take_nonneg in * by lia. fold key. cbv zeta in *. auto. }
  assert (IS : forall i, In i (sorted_set (flat_map F (combine labels shares))) <->
            exists j, (j < length labels)%nat /\ In i (F (nth j labels 0, nth j shares 0))).
  { intros i. rewrite sorted_set_In, in_flat_map. split.
    - intros (p & Hp & Hi). apply (In_nth _ _ (0, 0)) in Hp. destruct Hp as (j & Lj & Ej).
      rewrite combine_length in Lj. exists j. split; [lia|]. rewrite nth_combine_Z in Ej by congruence. rewrite Ej. exact Hi.
    - intros (j & Lj & Hi). exists (nth j labels 0, nth j shares 0). split; [|exact Hi].
      rewrite <- nth_combine_Z by congruence. apply nth_In. rewrite combine_length. lia. }
  clearbody F. split; [apply sorted_set_sorted|]. split; [|split].
  - intros i Hi. apply IS in Hi. destruct Hi as (j & Lj & Hi).
    destruct (FF (nth j labels 0) (nth j shares 0)) as (f & Ef & _ & Inc & _). rewrite Ef in Hi. apply Inc, II in Hi.
    destruct Hi as (A & B & C). split; [exact A|]. split; [rewrite B; now apply nth_In|exact C].
  - intros j Lj ids ND Inc Hp.
    destruct (FF (nth j labels 0) (nth j shares 0)) as (f & Ef & _ & _ & Lf & _).
    assert (incl ids f).
    { intros i Hi. specialize (Inc i Hi). apply IS in Inc. destruct Inc as (j' & Lj' & Hi').
      destruct (FF (nth j' labels 0) (nth j' shares 0)) as (f' & Ef' & _ & Inc' & _). rewrite Ef' in Hi'.
      pose proof (Inc' i Hi') as H. apply II in H. destruct H as (_ & E & _). rewrite (Hp i Hi) in E.
      assert (j = j') by (apply (proj1 (NoDup_nth labels 0) NL); auto). subst j'. rewrite <- Ef, Ef'. exact Hi'. }
    pose proof (NoDup_incl_length ND H). lia.
  - intros r j Hr Lj Hp Re Hn.
    destruct (FF (nth j labels 0) (nth j shares 0)) as (f & Ef & Nf & Inc & Lf & Best).
    assert (Ir : In r (idx (nth j labels 0))) by (apply II; auto).
    assert (Nr : ~ In r f). { intros H. apply Hn, IS. exists j. split; [exact Lj|]. rewrite Ef. exact H. }
    exists f. split; [exact Nf|]. split.
    + assert (length f < length (idx (nth j labels 0%Z)))%nat; [|lia].
      destruct (le_lt_dec (length (idx (nth j labels 0))) (length f)) as [G|G]; [|exact G]. exfalso. apply Nr.
      apply (@NoDup_length_incl _ _ _ Nf G Inc). exact Ir.
    + intros i Hi. split; [apply IS; exists j; split; [exact Lj|rewrite Ef; exact Hi]|].
      pose proof (Inc i Hi) as H. apply II in H. destruct H as (A & B & C). split; [exact B|].
      apply top_not_more_confident; [apply NE, nth_In; lia|apply NE, nth_In; lia|]. apply (Best i r Hi Ir Nr).
Qed.

Lemma proposes_nothing labels shares thr scs pred : (forall j, (j < length labels)%nat -> nth j shares 0 <= 0) ->
  proposes labels shares thr scs pred [].
Proof.
  intros H. split; [constructor|]. split; [intros i []|]. split.
  - intros j Hj ids _ Inc _. destruct ids as [|x ids]; [cbn; lia|]. destruct (Inc x (or_introl eq_refl)).
  - intros r j _ Hj _ _ _. exists []. split; [constructor|]. specialize (H j Hj). split; [cbn; lia|]. intros i [].
Qed.

Lemma counts_positive y : y <> [] -> 0 < sumZ (map (fun l => countZ l y) (uniqueZ y)) /\
  forall c, In c (map (fun l => countZ l y) (uniqueZ y)) -> 0 <= c.
Proof.
  intros H. assert (N : forall c, In c (map (fun l => countZ l y) (uniqueZ y)) -> 0 <= c).
  { intros c Hc. apply in_map_iff in Hc. destruct Hc as (l & <- & _). apply countZ_nonneg. }
  split; [|exact N]. destruct y as [|a y]; [congruence|].
  assert (I : In a (uniqueZ (a :: y))) by (apply uniqueZ_In; now left).
  assert (P : 0 < countZ a (a :: y)) by (apply countZ_pos; now left).
  assert (I2 : In (countZ a (a :: y)) (map (fun l => countZ l (a :: y)) (uniqueZ (a :: y)))) by (apply in_map_iff; eauto).
  revert I2 N P. generalize (countZ a (a :: y)). generalize (map (fun l => countZ l (a :: y)) (uniqueZ (a :: y))). clear.
  assert (Q : forall l, (forall c, In c l -> 0 <= c) -> 0 <= sumZ l).
  { induction l; cbn; intros N; [lia|]. specialize (IHl (fun c Hc => N c (or_intror Hc))). specialize (N a (or_introl eq_refl)). lia. }
  induction l as [|x l IH]; intros z I N P; [destruct I|]. cbn. destruct I as [->|I].
  - specialize (Q l (fun c Hc => N c (or_intror Hc))). lia.
  - specialize (IH z I (fun c Hc => N c (or_intror Hc)) P). specialize (N x (or_introl eq_refl)). lia.
Qed.

(* the candidates of a round, whatever the budget *)
Lemma setred_candidates_spec argsort scs pred y max_new thr : sorts_positions argsort -> y <> [] ->
  length pred = length scs -> (forall r, In r scs -> r <> []) ->
  exists shares,
    splits (Z.max 0 (Z.min max_new (lenZ scs))) (map (fun l => countZ l y) (uniqueZ y)) shares /\
    proposes (uniqueZ y) shares thr scs pred
      (setred_candidates argsort scs pred (uniqueZ y) (map (fun l => countZ l y) (uniqueZ y)) max_new thr).
Proof.
  intros So Hy LP NE. destruct (counts_positive y Hy) as [CP CN].
  unfold setred_candidates. set (t := Z.min max_new (lenZ scs)). set (counts := map (fun l => countZ l y) (uniqueZ y)) in *.
  assert (LC : length counts = length (uniqueZ y)) by apply map_length.
  destruct (Z.leb_spec t 0) as [T|T].
  - exists (map (fun _ => 0) counts). assert (Z0 : forall j, nth j (map (fun _ => 0) counts) 0 = 0).
    { intros j. clear. revert j. induction counts; intros [|j]; cbn; auto. }
    split.
    + split; [apply map_length|]. split.
      * replace (Z.max 0 t) with 0 by lia. clear. induction counts; cbn; auto.
      * intros j Hj. cbv zeta. rewrite <- sumZ_fold, Z0. replace (Z.max 0 t) with 0 by lia. lia.
    + apply proposes_nothing. intros j _. rewrite Z0. lia.
  - exists (allocate_per_class argsort t counts). replace (Z.max 0 t) with t by lia.
    pose proof (allocate_splits argsort t counts So T CN CP) as SP. split; [exact SP|].
    apply candidates_core; auto; [apply uniqueZ_NoDup|]. destruct SP as (L & _). congruence.
Qed.

(* ----- masks ----- *)
Lemma mask_select_map {A B} (f : A -> B) l keep : mask_select (map f l) keep = map f (mask_select l keep).
Proof.
  unfold mask_select. revert keep. induction l as [|a l IH]; intros [|k keep]; cbn; auto. destruct k; cbn; [f_equal|]; apply IH.
Qed.

Lemma mask_select_combine {A B} (a : list A) (b : list B) keep : length a = length b ->
  mask_select (combine a b) keep = combine (mask_select a keep) (mask_select b keep).
Proof.
  unfold mask_select. revert b keep. induction a as [|x a IH]; intros [|y b] keep L; cbn in L; try lia; [destruct keep; reflexivity|].
  destruct keep as [|k keep]; [reflexivity|]. cbn. destruct k; cbn; [f_equal|]; apply IH; lia.
Qed.

Lemma mask_select_incl {A} (l : list A) keep x : In x (mask_select l keep) -> In x l.
Proof.
  unfold mask_select. revert keep. induction l as [|a l IH]; intros [|k keep]; cbn; try tauto.
  destruct k; cbn; [intros [->|H]; [now left|right; eauto]|right; eauto].
Qed.

Lemma mask_select_NoDup {A} (l : list A) keep : NoDup l -> NoDup (mask_select l keep).
Proof.
  intros N. revert keep. induction N as [|a l H N IH]; intros [|k keep]; try constructor.
  unfold mask_select. cbn. destruct k; cbn; [constructor|]; fold (mask_select l keep); auto.
  intros I. apply mask_select_incl in I. contradiction.
Qed.

Lemma mask_select_length {A} (l : list A) keep : length keep = length l -> length (mask_select l keep) = length (filter (fun b : bool => b) keep).
Proof.
  unfold mask_select. revert keep. induction l as [|a l IH]; intros [|k keep] L; cbn in L; try lia; [reflexivity|].
  cbn. destruct k; cbn; [f_equal|]; apply IH; lia.
Qed.

Section SetredLoop.
Context {X M : Type}.
Variable d : X.
Variable fit : nat -> list X -> list Z -> M.
Variable scores : M -> list X -> list (list Q).
Variable predict : M -> list X -> list Z.
Variable argsort : list Q -> list nat.
Variable choice : nat -> nat -> nat -> list nat.
Variable edit : list X -> list Z -> nat -> list bool.
Variables (Xl0 : list X) (yl0 : list Z) (Xu0 : list X).
Hypothesis scores_length : forall m Z, length (scores m Z) = length Z.
Hypothesis scores_wide : forall m Z r, In r (scores m Z) -> r <> [].
Hypothesis predict_length : forall m Z, length (predict m Z) = length Z.
Hypothesis sorts : sorts_positions argsort.
Hypothesis choice_ok : forall r n s, (s <= n)%nat -> length (choice r n s) = s /\ NoDup (choice r n s) /\ forall i, In i (choice r n s) -> (i < n)%nat.
Hypothesis edit_length : forall Z y n, length (edit Z y n) = (length Z - n)%nat.
Hypothesis labelled : yl0 <> [].
Variables (pool_size max_new : option Z) (min_new : Z) (thr : option Q).

Notation round := (setred_round d fit scores predict edit Xl0 yl0 Xu0).

Lemma setred_round_prefix bs bs' k sel b : (k <= length bs)%nat ->
  round bs pool_size max_new thr k sel b <-> round (bs ++ bs') pool_size max_new thr k sel b.
Proof.
  intros H. unfold setred_round. rewrite model_at_prefix, pool_positions_prefix, training_set_prefix by exact H. reflexivity.
Qed.

Definition rounds_ok (bs : list batch) : Prop := forall k, (k < length bs)%nat ->
  exists sel, round bs pool_size max_new thr k sel (nth k bs []) /\ sel <> [] /\ min_new <= Z.of_nat (length (nth k bs [])).

Lemma setred_loop_spec fuel : forall bs done Xl yl Xu,
  inv d Xl0 yl0 Xu0 bs done Xl yl Xu -> rounds_ok bs ->
  let r := setred_loop d fit scores predict argsort choice edit pool_size max_new min_new thr fuel (done ++ [(Xl, yl)]) (fit (length done) Xl yl) Xl yl Xu in
  exists bs', let all := bs ++ bs' in
    setred_history d Xl0 yl0 Xu0 all (length bs + fuel) (calls r) (leftover r) /\ rounds_ok all /\
    setred_stop d fit scores predict edit Xl0 yl0 Xu0 all (length bs + fuel) pool_size max_new min_new thr.
Proof.
  induction fuel as [|f IH]; intros bs done Xl yl Xu I RO r.
  { exists []. cbv zeta. rewrite app_nil_r. subst r. cbn [setred_loop calls leftover].
    destruct I as (E & EX & ND & R & Ed). split; [|split; [exact RO|left; lia]].
    repeat (split; [assumption|]). split; [lia|]. rewrite seq_S, map_app, <- Ed, E. reflexivity. }
  assert (Hist : setred_history d Xl0 yl0 Xu0 bs (length bs + S f) ((done ++ [(Xl, yl)]) ++ [(Xl, yl)]) Xu).
  { destruct I as (E & EX & ND & R & Ed). repeat (split; [assumption|]). split; [lia|]. rewrite seq_S, map_app, <- Ed, E. reflexivity. }
  assert (Halt : forall P : Prop, P -> (P -> setred_stop d fit scores predict edit Xl0 yl0 Xu0 bs (length bs + S f) pool_size max_new min_new thr) ->
    exists bs', let all := bs ++ bs' in
    setred_history d Xl0 yl0 Xu0 all (length bs + S f) ((done ++ [(Xl, yl)]) ++ [(Xl, yl)]) Xu /\ rounds_ok all /\
    setred_stop d fit scores predict edit Xl0 yl0 Xu0 all (length bs + S f) pool_size max_new min_new thr).
  { intros P HP HS. exists []. cbv zeta. rewrite app_nil_r. auto. }
  pose proof (pool_length d Xl0 yl0 Xu0 _ _ _ _ _ I) as PL.
  pose proof (inv_done_length d Xl0 yl0 Xu0 _ _ _ _ _ I) as DL.
  assert (Ets : training_set d Xl0 yl0 Xu0 bs (length bs) = (Xl, yl)) by (symmetry; apply I).
  assert (EX : Xu = at_positions d Xu0 (pool_positions Xu0 bs (length bs))) by apply I.
  assert (Yne : yl <> []).
  { intros ->. pose proof (f_equal snd Ets) as E. cbn in E. apply app_eq_nil in E. destruct E. contradiction. }
  subst r. cbn [setred_loop].
  set (P := pool_positions Xu0 bs (length bs)) in *.
  destruct (Z.eqb_spec (lenZ Xu) 0) as [Z0|NZ].
  { apply (Halt (P = [])); [unfold lenZ in Z0; destruct P; [reflexivity|cbn in PL; lia]|]. intros H. right. left. exact H. }
  set (ps := Z.min (match pool_size with Some p => p | None => lenZ Xu end) (lenZ Xu)).
  destruct (Z.leb_spec ps 0) as [L0|L0].
  { apply (Halt (exists p, pool_size = Some p /\ p <= 0)); [|intros H; right; right; left; exact H].
    unfold ps in L0. destruct pool_size as [p|]; [exists p; split; [reflexivity|]; unfold lenZ in *; lia|unfold lenZ in *; lia]. }
  set (pool := if ps <? lenZ Xu then choice (length (done ++ [(Xl, yl)])) (Z.to_nat (lenZ Xu)) (Z.to_nat ps) else seq 0 (Z.to_nat (lenZ Xu))).
  assert (Pool : lenZ pool = ps /\ NoDup pool /\ forall i, In i pool -> (i < length Xu)%nat).
  { unfold pool, lenZ in *. destruct (Z.ltb_spec ps (Z.of_nat (length Xu))) as [C|C].
    - destruct (choice_ok (length (done ++ [(Xl, yl)])) (Z.to_nat (Z.of_nat (length Xu))) (Z.to_nat ps)) as (A & B & D); [lia|].
      split; [rewrite A; lia|]. split; [exact B|]. intros i Hi. specialize (D i Hi). lia.
    - split; [rewrite seq_length; lia|]. split; [apply seq_NoDup|]. intros i Hi. apply in_seq in Hi. lia. }
  destruct Pool as (Plen & PND & PR). clearbody pool.
  set (m := fit (length done) Xl yl).
  assert (Em : model_at d fit Xl0 yl0 Xu0 bs (length bs) = m) by (unfold model_at, m; rewrite Ets, DL; reflexivity).
  set (qs := rows 0%nat P pool).
  assert (Xp : rows d Xu pool = at_positions d Xu0 qs).
  { rewrite EX. apply rows_of_pool. intros p Hp. rewrite <- PL. now apply PR. }
  rewrite Xp.
  set (scs := scores m (at_positions d Xu0 qs)). set (pred := predict m (at_positions d Xu0 qs)).
  assert (Lq : length qs = length pool) by apply rows_length.
  assert (Ls : length scs = length qs) by (unfold scs; rewrite scores_length; apply at_positions_length).
  assert (Lp : length pred = length qs) by (unfold pred; rewrite predict_length; apply at_positions_length).
  set (total := match max_new with Some k => Z.min ps k | None => ps end).
  destruct (setred_candidates_spec argsort scs pred yl total thr sorts Yne) as (shares & SP & PP); [congruence|intros r; apply scores_wide|].
  set (sel := setred_candidates argsort scs pred (uniqueZ yl) (map (fun l => countZ l yl) (uniqueZ yl)) total thr) in *.
  assert (SelR : forall p, In p sel -> (p < length qs)%nat) by (intros p Hp; rewrite <- Ls; apply PP, Hp).
  assert (SelN : NoDup sel) by (apply StronglySorted_lt_NoDup, PP).
  assert (exists ids, ids = map (fun p => nth p qs 0%nat) sel) as (ids & Di) by eauto.
  assert (exists labs, labs = map (fun p => nth p pred 0) sel) as (labs & Dl) by eauto.
  set (keep := edit (Xl ++ at_positions d Xu0 ids) (yl ++ labs) (length Xl)).
  assert (Round : round bs pool_size max_new thr (length bs) sel (accepted (combine ids labs) keep)).
  { unfold setred_round. rewrite Ets, Em. cbn [fst snd]. fold P. exists qs, (uniqueZ yl), shares.
    split; [apply rows_NoDup; [apply StronglySorted_lt_NoDup, untaken_sorted|exact PND|intros i Hi; rewrite <- PL; now apply PR]|].
    split; [intros x Hx; apply (rows_In 0%nat P pool x); [intros i Hi; rewrite <- PL; now apply PR|exact Hx]|].
    split; [rewrite Lq; unfold lenZ in *; rewrite <- PL; unfold ps in Plen; destruct pool_size; lia|].
    split; [apply uniqueZ_ascending|]. split; [intros l; apply uniqueZ_In|].
    split; [|split; [exact PP|unfold keep; rewrite Di, Dl; reflexivity]].
    replace (budget max_new (length qs)) with (Z.max 0 (Z.min total (lenZ scs))); [exact SP|].
    unfold budget, total, lenZ in *. rewrite Ls. destruct max_new; lia. }
  assert (Lkeep : length keep = length sel).
  { unfold keep. rewrite edit_length, app_length, at_positions_length. rewrite Di, map_length. lia. }
  assert (Lids : length ids = length sel) by (rewrite Di; apply map_length). assert (Llabs : length labs = length sel) by (rewrite Dl; apply map_length).
  assert (Lb : length (accepted (combine ids labs) keep) = length (filter (fun b : bool => b) keep)).
  { apply mask_select_length. rewrite combine_length, Lids, Llabs, Lkeep. lia. }
  destruct sel as [|s0 sel0] eqn:Es.
  { rewrite <- Es in *. eapply Halt; [exact Round|]. intros H. right. right. right.
    exists [], (accepted (combine ids labs) keep). split; [|now left]. rewrite Es in H at 1. exact H. }
  rewrite <- Es in *.
  assert (EX0 : rows d (at_positions d Xu0 qs) sel = at_positions d Xu0 ids) by (rewrite Di; apply rows_of_pool; exact SelR).
  rewrite EX0. change (rows 0 pred sel) with (map (fun p => nth p pred 0) sel). rewrite <- Dl. fold keep.
  destruct (Z.ltb_spec (lenZ (filter (fun b : bool => b) keep)) min_new) as [Few|Enough].
  { eapply Halt; [exact Round|]. intros H. right. right. right.
    exists sel, (accepted (combine ids labs) keep). split; [exact H|]. right. unfold lenZ in Few. lia. }
  set (pos := rows 0%nat pool (mask_select sel keep)).
  assert (PosN : NoDup pos).
  { apply rows_NoDup; [exact PND|now apply mask_select_NoDup|]. intros i Hi. apply mask_select_incl in Hi. rewrite <- Lq. now apply SelR. }
  assert (PosR : forall p, In p pos -> (p < length Xu)%nat).
  { intros p Hp. apply PR. apply (rows_In 0%nat pool (mask_select sel keep)); [|exact Hp].
    intros i Hi. apply mask_select_incl in Hi. rewrite <- Lq. now apply SelR. }
  assert (Lpos : length (mask_select labs keep) = length pos).
  { unfold pos. rewrite rows_length. rewrite Dl, mask_select_map, map_length. reflexivity. }
  destruct (inv_step d Xl0 yl0 Xu0 bs done Xl yl Xu pos (mask_select labs keep) I PosN PosR Lpos) as [I' ER].
  fold P in I', ER.
  assert (Eids : rows 0%nat P pos = mask_select ids keep).
  { unfold pos, rows. rewrite Di, mask_select_map, map_map. apply map_ext_in. intros p Hp. apply mask_select_incl in Hp.
    unfold qs. symmetry. rewrite (nth_rows 0%nat P pool p 0%nat); [reflexivity|]. rewrite <- Lq. now apply SelR. }
  assert (Eb : combine (rows 0%nat P pos) (mask_select labs keep) = accepted (combine ids labs) keep).
  { rewrite Eids. symmetry. apply mask_select_combine. congruence. }
  rewrite Eb in I'.
  assert (EXl : Xl ++ mask_select (at_positions d Xu0 ids) keep = Xl ++ rows d Xu pos).
  { f_equal. rewrite ER, Eids. unfold at_positions. apply mask_select_map. }
  rewrite EXl.
  assert (Lbs : length (bs ++ [accepted (combine ids labs) keep]) = S (length bs)) by (rewrite app_length; cbn; lia).
  destruct (IH (bs ++ [accepted (combine ids labs) keep]) (done ++ [(Xl, yl)]) _ _ _ I') as (bs' & A & B & C).
  - intros k Hk. rewrite Lbs in Hk. destruct (Nat.eq_dec k (length bs)) as [->|Hn].
    + exists sel. rewrite app_nth2, Nat.sub_diag by lia. cbn [nth]. split; [apply setred_round_prefix; [lia|exact Round]|].
      split; [rewrite Es; discriminate|]. rewrite Lb. unfold lenZ in Enough. lia.
    + destruct (RO k ltac:(lia)) as (sl & R1 & R2 & R3). exists sl. rewrite app_nth1 by lia.
      split; [apply setred_round_prefix; [lia|exact R1]|]. auto.
  - exists (accepted (combine ids labs) keep :: bs'). cbv zeta. rewrite Lbs in A, C. rewrite <- app_assoc in A, B, C. cbn [app] in A, B, C.
    replace (S (length bs) + f)%nat with (length bs + S f)%nat in A, C by lia.
    split; [exact A|]. split; [exact B|exact C].
Qed.

Lemma setred_fit_spec max_iter r :
  setred_fit d fit scores predict argsort choice edit max_iter pool_size max_new min_new thr Xl0 yl0 Xu0 = Ok r ->
  Xu0 <> [] ->
  exists bs, setred_history d Xl0 yl0 Xu0 bs (Z.to_nat max_iter) (calls r) (leftover r) /\ rounds_ok bs /\
    setred_stop d fit scores predict edit Xl0 yl0 Xu0 bs (Z.to_nat max_iter) pool_size max_new min_new thr.
Proof.
  intros H NE. unfold setred_fit in H. destruct (min_new <? 0); [discriminate|]. destruct Xu0 as [|x Xu'] eqn:EX; [congruence|].
  rewrite <- EX in *. destruct Xl0 as [|y Xl'] eqn:EL; [discriminate|]. rewrite <- EL in *. injection H as <-.
  destruct (setred_loop_spec (Z.to_nat max_iter) [] [] Xl0 yl0 Xu0) as (bs & A & B & C).
  - rewrite EL, EX. apply inv_init.
  - intros k Hk. cbn in Hk. lia.
  - cbn [app length plus] in *. exists bs. split; [exact A|]. split; [exact B|exact C].
Qed.
End SetredLoop.
