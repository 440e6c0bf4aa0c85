(* Proofs about whole samples. *)
From Coq Require Import String QArith Qabs.
From Coq Require Import ZifyBool ZifyNat.
From Verif Require Import Prelude ListFacts FloatModel FloatProofs SamplingSpec SamplingModel
  LabelingSpec SamplingProofs KFoldProofs LabelingProofs SampleServiceModel SampleServiceSpec.
Local Open Scope Z_scope.
Local Open Scope list_scope.
#[local] Open Scope Z_scope.

Lemma bind_ok {A B} (r : result A) (f : A -> result B) b :
  bind r f = Ok b -> exists a, r = Ok a /\ f a = Ok b.
Proof. destruct r; cbn; [eauto|discriminate]. Qed.

Ltac inv_bind H := let a := fresh "a" in let E := fresh "E" in
  apply bind_ok in H; destruct H as (a & E & H).

Lemma check_idx_ok n_train n_test base idx :
  check_idx n_train n_test base idx = Ok tt <->
  (idx <> [] -> if String.eqb base "train" then in_bounds n_train idx
                else exists nt, n_test = Some nt /\ in_bounds nt idx).
Proof.
  unfold check_idx. destruct idx as [|x0 xr] eqn:Ei; [split; [congruence|reflexivity]|].
  rewrite <- Ei. assert (Hne : idx <> []) by (subst; discriminate).
  assert (Hin : In x0 idx) by (subst; left; reflexivity).
  assert (Hmain : forall n,
    (if (minZ idx <? 0) || (n <=? maxZ idx) then Err SamplingValidationError
     else if has_dup idx then Err SamplingValidationError else Ok tt) = Ok tt <-> in_bounds n idx).
  { intros n. split.
    - destruct (_ || _) eqn:Hb; [discriminate|]. destruct (has_dup idx) eqn:Hd; [discriminate|].
      intros _. split; [apply has_dup_false, Hd|]. intros i Hi.
      pose proof (minZ_le _ _ Hi). pose proof (maxZ_ge _ _ Hi). lia.
    - intros [Hnd Hr]. apply has_dup_false in Hnd. rewrite Hnd.
      assert (Hmin : 0 <= minZ idx).
      { assert (In (minZ idx) idx); [|apply Hr; assumption].
        unfold minZ. rewrite Ei. cbn [hd]. clear.
        assert (H : forall l d, fold_right Z.min d l = d \/ In (fold_right Z.min d l) l).
        { induction l as [|a l IH]; intros d; cbn; [auto|].
          destruct (Z.min_dec a (fold_right Z.min d l)) as [E|E]; rewrite E; [right; auto|].
          destruct (IH d); auto. }
        destruct (H (x0 :: xr) x0) as [-> |Hm]; [left; reflexivity|exact Hm]. }
      assert (Hmax : maxZ idx < n).
      { assert (In (maxZ idx) idx); [|apply Hr; assumption].
        unfold maxZ. rewrite Ei. cbn [hd]. clear.
        assert (H : forall l d, fold_right Z.max d l = d \/ In (fold_right Z.max d l) l).
        { induction l as [|a l IH]; intros d; cbn; [auto|].
          destruct (Z.max_dec a (fold_right Z.max d l)) as [E|E]; rewrite E; [right; auto|].
          destruct (IH d); auto. }
        destruct (H (x0 :: xr) x0) as [-> |Hm]; [left; reflexivity|exact Hm]. }
      destruct (_ || _) eqn:Hb; [lia|reflexivity]. }
  destruct (String.eqb base "train").
  - rewrite Hmain. tauto.
  - destruct n_test as [nt|].
    + rewrite Hmain. split; [eauto|]. intros H. destruct (H Hne) as (m & [= <-] & Hb). exact Hb.
    + split; [discriminate|]. intros H. destruct (H Hne) as (m & [=] & _).
Qed.

Lemma check_all_ok n_train n_test refs l :
  check_all n_train n_test refs l = Ok tt <->
  forall name idx, In (name, idx) l -> check_idx n_train n_test (ref_of refs name) idx = Ok tt.
Proof.
  induction l as [|[nm ix] r IH]; cbn [check_all].
  - split; [intros _ ? ? []|reflexivity].
  - fold (ref_of refs nm). split.
    + intros H. inv_bind H. destruct a. intros name idx [[= <- <-]|Hin]; [exact E|].
      apply IH; assumption.
    + intros H. rewrite (H nm ix) by (left; reflexivity). cbn. apply IH.
      intros; apply H; right; assumption.
Qed.

Lemma list_eqb_eq a b : list_eqb a b = true <-> a = b.
Proof.
  revert b; induction a as [|x r IH]; intros [|y t]; cbn; try (split; [discriminate|congruence]).
  - tauto.
  - rewrite andb_true_iff, IH, Z.eqb_eq. split; [intros [-> ->]; reflexivity|].
    intros [= -> ->]; auto.
Qed.

Lemma sortZ_eq_perm a b : sortZ a = sortZ b <-> Permutation a b.
Proof.
  split.
  - intros H. rewrite <- (sortZ_perm a), H. apply sortZ_perm.
  - intros H. assert (Hp : Permutation (sortZ a) (sortZ b)).
    { rewrite (sortZ_perm a), (sortZ_perm b). exact H. }
    pose proof (sortZ_sorted a) as Ha. pose proof (sortZ_sorted b) as Hb.
    revert Hp Ha Hb. generalize (sortZ a) (sortZ b). clear. intros l1.
    induction l1 as [|x r IH]; intros l2 Hp H1 H2.
    + apply Permutation_nil in Hp. congruence.
    + destruct l2 as [|y t]; [symmetry in Hp; apply Permutation_nil in Hp; discriminate|].
      inversion H1 as [|? ? Hs1 Hf1]; inversion H2 as [|? ? Hs2 Hf2]; subst.
      rewrite Forall_forall in Hf1, Hf2.
      assert (x = y).
      { assert (In x (y :: t)) as Hx by (rewrite <- Hp; left; reflexivity).
        assert (In y (x :: r)) as Hy by (rewrite Hp; left; reflexivity).
        destruct Hx as [->|Hx]; [reflexivity|]. destruct Hy as [->|Hy]; [reflexivity|].
        apply Hf2 in Hx. apply Hf1 in Hy. lia. }
      subst. apply Permutation_cons_inv in Hp. f_equal. apply IH; assumption.
Qed.

Lemma validate_inductive_spec n_train n_test r :
  validate_inductive n_train n_test r = Ok tt <->
  exists tr va te la un, sound_dictionary n_train n_test r tr va te la un.
Proof.
  unfold validate_inductive. split.
  - intros H. inv_bind H. destruct a. rewrite check_all_ok in E.
    destruct (get (r_indices r) "train") as [tr|] eqn:E1; [|discriminate].
    destruct (get (r_indices r) "val") as [va|] eqn:E2; [|discriminate].
    destruct (get (r_indices r) "test") as [te|] eqn:E3; [|discriminate].
    destruct (negb _ || negb _) eqn:Hr in H; [discriminate|].
    apply orb_false_iff in Hr. rewrite !negb_false_iff, !String.eqb_eq in Hr. destruct Hr as [Hr1 Hr2].
    destruct (intersects tr va) eqn:Hi1; [discriminate|]. rewrite intersects_false in Hi1.
    destruct (_ && _) eqn:Ht in H; [discriminate|].
    destruct (get (r_indices r) "train_labeled") as [la|] eqn:E4; [|discriminate].
    destruct (get (r_indices r) "train_unlabeled") as [un|] eqn:E5; [|discriminate].
    destruct (intersects la un) eqn:Hi2; [discriminate|]. rewrite intersects_false in Hi2.
    destruct (negb _) eqn:Hl in H; [discriminate|].
    rewrite negb_false_iff, list_eqb_eq, sortZ_eq_perm in Hl.
    exists tr, va, te, la, un. constructor; try assumption.
    + intros name idx Hin. apply check_idx_ok, E, Hin.
    + intros Href i Hi. rewrite Href, String.eqb_refl in Ht. cbn in Ht.
      apply orb_false_iff in Ht. rewrite !intersects_false in Ht. destruct Ht as [Ha Hb].
      split; intros Hx; [apply (Ha i Hx Hi)|apply (Hb i Hx Hi)].
  - intros (tr & va & te & la & un & [H1 H2 H3 H4 H5 Hb Hr1 Hr2 Htv Hta Hla Hlc]).
    rewrite (proj2 (check_all_ok n_train n_test (r_refs r) (r_indices r))).
    2:{ intros name idx Hin. apply check_idx_ok. intros Hne. apply Hb; assumption. }
    cbn [bind]. rewrite H1, H2, H3, H4, H5, Hr1, Hr2. cbn [String.eqb negb orb].
    replace (negb ("train" =? "train")%string) with false by reflexivity. cbn [orb].
    rewrite (proj2 (intersects_false tr va)) by (intros x Hx Hy; eapply Htv; eassumption).
    rewrite (proj2 (intersects_false la un)) by (intros x Hx Hy; eapply Hla; eassumption).
    rewrite (proj2 (list_eqb_eq _ _)) by (apply sortZ_eq_perm, Hlc).
    destruct (String.eqb (ref_of (r_refs r) "test") "train") eqn:Et; cbn [andb negb]; [|reflexivity].
    apply String.eqb_eq in Et. specialize (Hta Et).
    rewrite (proj2 (intersects_false tr te)) by (intros x Hx Hy; apply Hta in Hy; tauto).
    rewrite (proj2 (intersects_false va te)) by (intros x Hx Hy; apply Hta in Hy; tauto).
    reflexivity.
Qed.

(* ------------------------------------------------------------------ the inductive sample *)
Lemma partition_facts n tr va te :
  is_partition (fun x => 0 <= x < n) [tr; va; te] ->
  ascending tr /\ ascending va /\ ascending te /\
  (forall x, 0 <= x < n <-> In x tr \/ In x va \/ In x te) /\
  (forall x, In x tr -> ~ In x va) /\ (forall x, In x tr -> ~ In x te) /\
  (forall x, In x va -> ~ In x te).
Proof.
  intros [Hs Hc Hd].
  split; [apply Hs; cbn; auto|]. split; [apply Hs; cbn; auto|]. split; [apply Hs; cbn; auto|].
  split.
  - intros x. rewrite Hc. split.
    + intros (p & [<-|[<-|[<-|[]]]] & Hx); auto.
    + intros [H|[H|H]]; [exists tr|exists va|exists te]; cbn; auto.
  - split; [|split]; intros x H1 H2.
    + apply (Hd 0%nat 1%nat x); [discriminate|exact H1|exact H2].
    + apply (Hd 0%nat 2%nat x); [discriminate|exact H1|exact H2].
    + apply (Hd 1%nat 2%nat x); [discriminate|exact H1|exact H2].
Qed.

Lemma run_split_partition R ord s y sp q :
  argsort_valid ord -> run_split R ord s y sp = Ok q ->
  is_partition (fun x => 0 <= x < lenZ y) [train q; val q; test q].
Proof.
  intros Hv E. destruct sp as [tf vf st sh|k fold st sh vf]; cbn in E.
  - destruct (make_holdout_split_spec _ _ _ _ _ _ _ _ _ Hv E) as (_ & H & _). exact H.
  - apply (make_kfold_one _ _ _ _ _ _ _ _ _ _ _ Hv E).
Qed.

Lemma share_zero n size : 0 <= n -> share_size f64_zero n size -> size = 0.
Proof.
  intros Hn (r & (q & Hq & Hr1 & Hr2) & ->).
  assert (q == 0)%Q as Hq0.
  { revert Hq. generalize (f64_of_Z n). intros x.
    destruct x as [s|s| |s m e]; cbn; try discriminate; intros [= <-]; reflexivity. }
  rewrite Hq0 in Hr1. unfold Qminus in Hr1. rewrite Qplus_0_l, Qabs_opp in Hr1.
  assert (r = 0); [|subst; unfold clampZ; lia].
  unfold Qabs, inject_Z, Qle, Qmult in Hr1. destruct r; cbn in Hr1; lia.
Qed.

Lemma run_split_official_partition R ord s y sp q :
  argsort_valid ord -> run_split_official R ord s y sp = Ok q ->
  is_partition (fun x => 0 <= x < lenZ y) [fst q; snd q; []].
Proof.
  intros Hv E. destruct sp as [tf vf st sh|k fold st sh vf]; cbn in E; inv_bind E.
  - injection E as <-. cbn [fst snd].
    destruct (make_holdout_split_spec _ _ _ _ _ _ _ _ _ Hv E0) as (Hn & H & Hs & _).
    apply share_zero in Hs; [|exact Hn].
    assert (test a = []) as Ht by (destruct (test a); [reflexivity|unfold lenZ in Hs; cbn in Hs; lia]).
    rewrite Ht in H. exact H.
  - injection E as <-. cbn [fst snd].
    destruct (make_kfold_one _ _ _ _ _ _ _ _ _ _ _ Hv E0) as (H & Hval).
    change (f64_ltb f64_zero f64_zero) with false in Hval. cbn iota in Hval. rewrite Hval in H.
    destruct (partition_facts _ _ _ _ H) as (Ha & Hb & Hc & Hcov & H1 & H2 & H3).
    constructor.
    + intros p [<-|[<-|[<-|[]]]]; assumption || constructor.
    + intros x. rewrite Hcov. split.
      * intros [Hx|[[]|Hx]]; [exists (train a)|exists (test a)]; cbn; auto.
      * intros (p & [<-|[<-|[<-|[]]]] & Hx); auto.
    + intros i j x Hij Hx Hy.
      destruct i as [|[|[|i]]], j as [|[|[|j]]]; cbn in Hx, Hy; try tauto;
        try (destruct i; cbn in Hx; tauto); try (destruct j; cbn in Hy; tauto); eauto.
      * apply (H2 x); assumption.
      * apply (H2 x); assumption.
Qed.

(* the base of the test indices *)
Definition official_test_kept (p : plan) (n_test : option Z) : Prop :=
  n_test <> None /\ respect_official_test (p_policy p) = true /\
  allow_override_official (p_policy p) = false.

Lemma inductive_parts_spec R ord s p y n_test tr va te base :
  argsort_valid ord ->
  inductive_parts R ord s p y n_test = Ok (tr, va, te, base) ->
  (official_test_kept p n_test /\ base = "test"%string /\
   (exists nt, n_test = Some nt /\ te = arange nt) /\
   is_partition (fun x => 0 <= x < lenZ y) [tr; va; []]) \/
  (~ official_test_kept p n_test /\ base = "train"%string /\
   is_partition (fun x => 0 <= x < lenZ y) [tr; va; te]).
Proof.
  intros Hv E. unfold inductive_parts, official_test_kept in *.
  destruct n_test as [nt|].
  2:{ inv_bind E. injection E as <- <- <- <-. right. split; [tauto|]. split; [reflexivity|].
      eapply run_split_partition; eassumption. }
  destruct (respect_official_test (p_policy p)).
  2:{ inv_bind E. injection E as <- <- <- <-. right. split; [intuition congruence|].
      split; [reflexivity|]. eapply run_split_partition; eassumption. }
  destruct (allow_override_official (p_policy p)); cbn in E; inv_bind E; injection E as <- <- <- <-.
  - right. split; [intuition congruence|]. split; [reflexivity|]. eapply run_split_partition; eassumption.
  - left. split; [intuition congruence|]. split; [reflexivity|]. split; [eauto|].
    eapply run_split_official_partition; eassumption.
Qed.

Lemma labeled_perm tr la :
  NoDup tr -> NoDup la -> incl la tr ->
  Permutation (la ++ setdiff1d tr la) tr.
Proof.
  intros Hnt Hnl Hi. apply NoDup_Permutation.
  - apply NoDup_app_iff. split; [exact Hnl|]. split; [apply ascending_NoDup, setdiff1d_ascending|].
    intros x Hx Hy. apply setdiff1d_In in Hy. tauto.
  - exact Hnt.
  - intros x. rewrite in_app_iff, setdiff1d_In. split; [intros [H|H]; [apply Hi, H|tauto]|].
    intros H. destruct (in_dec Z.eq_dec x la); tauto.
Qed.

(* how the published train set relates to the split's train part *)
Definition train_unchanged (p : plan) : Prop :=
  i_apply_to (p_imbalance p) = ApplyLabeled \/ i_kind (p_imbalance p) = INone.

Lemma inductive_raw_spec R ord decay ss sl si p y n_test r :
  argsort_valid ord ->
  inductive_raw R ord decay ss sl si p y n_test = Ok r ->
  exists x split_train,
    publishes r x /\
    ascending (ix_train x) /\ incl (ix_train x) split_train /\
    (train_unchanged p -> ix_train x = split_train) /\
    is_partition (fun i => In i (ix_train x)) [ix_labeled x; ix_unlabeled x] /\
    ((official_test_kept p n_test /\ ix_test_base x = "test"%string /\
      (exists nt, n_test = Some nt /\ ix_test x = arange nt) /\
      is_partition (fun i => 0 <= i < lenZ y) [split_train; ix_val x; []]) \/
     (~ official_test_kept p n_test /\ ix_test_base x = "train"%string /\
      is_partition (fun i => 0 <= i < lenZ y) [split_train; ix_val x; ix_test x])).
Proof.
  intros Hv E. unfold inductive_raw in E. inv_bind E. destruct a as [[[tr va] te] base].
  pose proof (inductive_parts_spec _ _ _ _ _ _ _ _ _ _ Hv E0) as Hp.
  assert (Hasc : ascending tr /\ ascending va /\ ascending te).
  { destruct Hp as [(_ & _ & (nt & _ & ->) & H)|(_ & _ & H)]; apply partition_facts in H.
    - intuition. apply arange_ascending.
    - intuition. }
  destruct Hasc as (Htr & Hva & Hte).
  inv_bind E. destruct a as [adj s1]. inv_bind E. inv_bind E. injection E as <-.
  assert (Hadj : ascending adj /\ incl adj tr /\ (train_unchanged p -> adj = tr)).
  { destruct (i_apply_to (p_imbalance p)) eqn:Ea.
    - destruct (apply_imbalance_subset _ _ _ _ _ _ _ _ _ Hv (ascending_NoDup _ Htr) E1) as [H1 H2].
      split; [exact H1|]. split; [exact H2|].
      intros [Hx|Hx]; [unfold train_unchanged in *; congruence|].
      unfold apply_imbalance in E1. rewrite Hx in E1. injection E1 as <- _.
      apply sortZ_of_ascending, Htr.
    - injection E1 as <- _. split; [exact Htr|]. split; [apply incl_refl|reflexivity]. }
  destruct Hadj as (Hadj & Hinc & Heq).
  destruct (select_labeled_subset _ _ _ _ _ _ _ Hv (ascending_NoDup _ Hadj) E2) as (Hl1 & Hl2 & _).
  assert (Hlab : ascending a0 /\ incl a0 adj).
  { destruct (i_apply_to (p_imbalance p)).
    - injection E3 as <-. auto.
    - inv_bind E3. destruct a1 as [o so]. injection E3 as <-. cbn.
      destruct (apply_imbalance_subset _ _ _ _ _ _ _ _ _ Hv (ascending_NoDup _ Hl1) E) as [H1 H2].
      split; [exact H1|]. eapply incl_tran; eassumption. }
  destruct Hlab as (Hla & Hli).
  pose proof (setdiff1d_ascending adj a0) as Hun.
  rewrite (sortZ_of_ascending _ Hadj), (sortZ_of_ascending _ Hva), (sortZ_of_ascending _ Hte),
    (sortZ_of_ascending _ Hla), (sortZ_of_ascending _ Hun).
  exists {| ix_train := adj; ix_val := va; ix_test := te; ix_labeled := a0;
            ix_unlabeled := setdiff1d adj a0; ix_test_base := base |}, tr.
  cbn. split; [split; reflexivity|]. split; [exact Hadj|]. split; [exact Hinc|].
  split; [exact Heq|]. split; [|exact Hp].
  constructor.
  - intros q [<-|[<-|[]]]; assumption.
  - intros z. split.
    + intros Hz. destruct (in_dec Z.eq_dec z a0) as [Hi|Hi].
      * exists a0. cbn; auto.
      * exists (setdiff1d adj a0). split; [cbn; auto|]. apply setdiff1d_In; auto.
    + intros (q & [<-|[<-|[]]] & Hz); [apply Hli, Hz|]. apply setdiff1d_In in Hz. tauto.
  - intros i j z Hij Hi Hj.
    destruct i as [|[|i]], j as [|[|j]]; cbn in Hi, Hj; try tauto;
      try (destruct i; cbn in Hi; tauto); try (destruct j; cbn in Hj; tauto);
      apply setdiff1d_In in Hi || apply setdiff1d_In in Hj; tauto.
Qed.

Lemma sample_inductive_total R ord decay ss sl si p y n_test r :
  argsort_valid ord ->
  inductive_raw R ord decay ss sl si p y n_test = Ok r ->
  sample_inductive R ord decay ss sl si p y n_test = Ok r.
Proof.
  intros Hv E. unfold sample_inductive. rewrite E. cbn [bind].
  destruct (inductive_raw_spec _ _ _ _ _ _ _ _ _ _ Hv E)
    as (x & st & [Hix Href] & Htr & Hinc & _ & Hlab & Hp).
  destruct Hlab as [Hls Hlc Hld].
  assert (Hsla : ascending (ix_labeled x)) by (apply Hls; cbn; auto).
  assert (Hslu : ascending (ix_unlabeled x)) by (apply Hls; cbn; auto).
  assert (Hlasub : incl (ix_labeled x) (ix_train x)).
  { intros z Hz. apply Hlc. exists (ix_labeled x). cbn; auto. }
  assert (Hunsub : incl (ix_unlabeled x) (ix_train x)).
  { intros z Hz. apply Hlc. exists (ix_unlabeled x). cbn; auto. }
  assert (Hsplit : exists te, is_partition (fun i => 0 <= i < lenZ y) [st; ix_val x; te]).
  { destruct Hp as [(_ & _ & _ & H)|(_ & _ & H)]; eauto. }
  destruct Hsplit as (te0 & Hsplit). apply partition_facts in Hsplit.
  destruct Hsplit as (Hst & Hva & _ & Hcov & Hd1 & _ & _).
  assert (Hbt : forall l, incl l st -> forall i, In i l -> 0 <= i < lenZ y).
  { intros l Hl i Hi. apply Hcov. left. apply Hl, Hi. }
  rewrite (proj2 (validate_inductive_spec (lenZ y) n_test r)); [reflexivity|].
  exists (ix_train x), (ix_val x), (ix_test x), (ix_labeled x), (ix_unlabeled x).
  assert (Hrefs : ref_of (r_refs r) "train" = "train"%string /\
                  ref_of (r_refs r) "val" = "train"%string /\
                  ref_of (r_refs r) "test" = ix_test_base x /\
                  ref_of (r_refs r) "train_labeled" = "train"%string /\
                  ref_of (r_refs r) "train_unlabeled" = "train"%string).
  { rewrite Href. repeat split. }
  destruct Hrefs as (R1 & R2 & R3 & R4 & R5).
  constructor; try (rewrite Hix; reflexivity); try assumption.
  - intros name idx Hin Hne. rewrite Hix in Hin. cbn [In] in Hin.
    destruct Hin as [[= <- <-]|[[= <- <-]|[[= <- <-]|[[= <- <-]|[[= <- <-]|[]]]]]].
    + rewrite R1. cbn. split; [apply ascending_NoDup, Htr|]. apply Hbt, Hinc.
    + rewrite R2. cbn. split; [apply ascending_NoDup, Hva|]. intros i Hi. apply Hcov. auto.
    + rewrite R3. destruct Hp as [(_ & -> & (nt & -> & ->) & _)|(_ & -> & H)]; cbn.
      * exists nt. split; [reflexivity|]. split; [apply arange_NoDup|]. intros i. apply arange_In.
      * apply partition_facts in H. destruct H as (_ & _ & Ha & Hc & _).
        split; [apply ascending_NoDup, Ha|]. intros i Hi. apply Hc; auto.
    + rewrite R4. cbn. split; [apply ascending_NoDup, Hsla|]. apply Hbt.
      eapply incl_tran; eassumption.
    + rewrite R5. cbn. split; [apply ascending_NoDup, Hslu|]. apply Hbt.
      eapply incl_tran; eassumption.
  - intros i Hi Hj. apply Hinc in Hi. apply (Hd1 i); assumption.
  - intros Hb i Hi. rewrite R3 in Hb. destruct Hp as [(_ & Hb' & _)|(_ & _ & H)]; [congruence|].
    apply partition_facts in H. destruct H as (_ & _ & _ & _ & _ & H2 & H3).
    split; intros Hj; [apply Hinc in Hj; apply (H2 i)|apply (H3 i)]; assumption.
  - intros i Hi Hj. apply (Hld 0%nat 1%nat i); [discriminate|exact Hi|exact Hj].
  - apply NoDup_Permutation.
    + apply NoDup_app_iff. split; [apply ascending_NoDup, Hsla|].
      split; [apply ascending_NoDup, Hslu|]. intros z Hi Hj.
      apply (Hld 0%nat 1%nat z); [discriminate|exact Hi|exact Hj].
    + apply ascending_NoDup, Htr.
    + intros z. rewrite in_app_iff. split; [intros [H|H]; auto|].
      intros H. apply Hlc in H. destruct H as (q & [<-|[<-|[]]] & Hz); auto.
Qed.

Lemma sample_inductive_raw R ord decay ss sl si p y n_test r :
  sample_inductive R ord decay ss sl si p y n_test = Ok r ->
  inductive_raw R ord decay ss sl si p y n_test = Ok r.
Proof.
  intros E. unfold sample_inductive in E. inv_bind E. inv_bind E. injection E as <-. exact E0.
Qed.

(* train, val and test do not depend on the labelling part of the plan nor on its seed *)
Lemma inductive_streams R ord decay ss sl sl' si p p' y n_test r r' x x' :
  p_split p = p_split p' -> p_policy p = p_policy p' -> p_imbalance p = p_imbalance p' ->
  sample_inductive R ord decay ss sl si p y n_test = Ok r ->
  sample_inductive R ord decay ss sl' si p' y n_test = Ok r' ->
  publishes r x -> publishes r' x' ->
  ix_train x = ix_train x' /\ ix_val x = ix_val x' /\ ix_test x = ix_test x' /\
  ix_test_base x = ix_test_base x'.
Proof.
  intros H1 H2 H3 E E' Hx Hx'. apply sample_inductive_raw in E, E'.
  unfold inductive_raw in E, E'.
  assert (Hp : inductive_parts R ord ss p y n_test = inductive_parts R ord ss p' y n_test).
  { unfold inductive_parts. rewrite H1, H2. reflexivity. }
  rewrite <- Hp, <- H3 in E'. clear Hp. inv_bind E. rewrite E0 in E'. cbn [bind] in E'.
  destruct a as [[[tr va] te] base]. inv_bind E. rewrite E1 in E'. cbn [bind] in E'.
  destruct a as [adj s1]. inv_bind E. inv_bind E. inv_bind E'. inv_bind E'.
  injection E as <-. injection E' as <-.
  destruct Hx as [Ha Hb], Hx' as [Ha' Hb']. cbn in *.
  injection Ha as <- <- <- _ _. injection Ha' as <- <- <- _ _.
  injection Hb as <-. injection Hb' as <-. auto.
Qed.

(* ---------------------------------------------------------------------------------- graphs *)
Lemma nth_arange_map {A} (f : Z -> A) n i d :
  0 <= i < n -> nth (Z.to_nat i) (map f (arange n)) d = f i.
Proof.
  intros Hi. unfold arange. rewrite map_map.
  rewrite (nth_indep _ d (f (Z.of_nat 0))) by (rewrite map_length, seq_length; lia).
  rewrite (map_nth (fun x => f (Z.of_nat x))). rewrite seq_nth by lia. f_equal. lia.
Qed.

Lemma idx_to_mask_spec n idx m :
  idx_to_mask n idx = Ok m ->
  length m = Z.to_nat n /\ (forall i, 0 <= i -> on m i <-> In i idx).
Proof.
  unfold idx_to_mask. destruct (existsb _ idx) eqn:Hb; [discriminate|]. intros [= <-].
  split; [rewrite map_length; apply arange_length|]. intros i Hi. unfold on.
  destruct (Z_lt_le_dec i n) as [Hlt|Hge].
  - rewrite nth_arange_map by lia. apply memZ_In.
  - rewrite nth_overflow by (rewrite map_length, arange_length; lia).
    split; [discriminate|]. intros Hin. exfalso.
    assert (existsb (fun i => n <=? i) idx = true); [|congruence].
    apply existsb_exists. exists i. split; [exact Hin|lia].
Qed.

Lemma idx_to_mask_ok n idx :
  (forall i, In i idx -> i < n) -> exists m, idx_to_mask n idx = Ok m.
Proof.
  intros H. unfold idx_to_mask. destruct (existsb _ idx) eqn:Hb; [|eauto].
  apply existsb_exists in Hb. destruct Hb as (i & Hi & Hb). apply H in Hi. lia.
Qed.

Lemma where_true_In m i : 0 <= i -> (In i (where_true m) <-> on m i).
Proof.
  intros Hi. unfold where_true, on. rewrite filter_In, arange_In. split; [tauto|].
  intros H. split; [|exact H]. split; [exact Hi|]. unfold lenZ.
  destruct (Z_lt_le_dec i (Z.of_nat (length m))); [assumption|].
  rewrite nth_overflow in H by lia. discriminate.
Qed.

Lemma where_true_ascending m : ascending (where_true m).
Proof. apply StronglySorted_filter, arange_ascending. Qed.

Lemma where_true_bound m i : In i (where_true m) -> 0 <= i < lenZ m.
Proof. unfold where_true. rewrite filter_In, arange_In. tauto. Qed.

Lemma and_not_nth a b m : length a = length b -> and_not a b = Ok m ->
  length m = length a /\
  forall k, nth k m false = nth k a false && negb (nth k b false).
Proof.
  intros Hl. unfold and_not. rewrite Hl, Nat.eqb_refl. intros [= <-].
  split; [rewrite map_length, combine_length; lia|].
  revert b Hl. induction a as [|x r IH]; intros [|y t] Hl; cbn in Hl; try lia; intros [|k]; cbn; auto.
Qed.

Lemma pairs_nth (f : bool * bool -> bool) a b : length a = length b -> f (false, false) = false ->
  existsb f (combine a b) = false <-> (forall k, f (nth k a false, nth k b false) = false).
Proof.
  intros Hl Hf. revert b Hl. induction a as [|x r IH]; intros [|y t] Hl; cbn in Hl; try lia; cbn.
  - split; [|reflexivity]. intros _ [|k]; exact Hf.
  - rewrite orb_false_iff, IH by lia. split.
    + intros [H1 H2] [|k]; [exact H1|apply H2].
    + intros H. split; [apply (H 0%nat)|intros k; apply (H (S k))].
Qed.

Lemma bools_eqb_nth a b :
  bools_eqb a b = true <-> length a = length b /\ forall k, nth k a false = nth k b false.
Proof.
  unfold bools_eqb. rewrite andb_true_iff, Nat.eqb_eq. split; intros [Hl H]; (split; [exact Hl|]).
  - revert b Hl H. induction a as [|x r IH]; intros [|y t] Hl H; cbn in Hl; try lia; intros [|k]; cbn;
      try reflexivity; cbn in H; apply andb_true_iff in H; destruct H as [H1 H2].
    + apply Bool.eqb_prop, H1.
    + apply IH; [lia|exact H2].
  - revert b Hl H. induction a as [|x r IH]; intros [|y t] Hl H; cbn in Hl; try lia; cbn; [reflexivity|].
    apply andb_true_iff. split; [pose proof (H 0%nat) as H0; cbn in H0; subst; apply Bool.eqb_reflx|].
    apply IH; [lia|]. intros k. apply (H (S k)).
Qed.

Lemma validate_graph_spec n m : validate_graph n m = Ok tt <-> sound_masks n m.
Proof.
  unfold validate_graph. split.
  - destruct (existsb _ [_; _; _; _; _]) eqn:Hlen; [discriminate|].
    assert (HL : forall l, In l [m_train m; m_val m; m_test m; m_labeled m; m_unlabeled m] ->
      lenZ l = n).
    { intros l Hl. destruct (Z.eq_dec (lenZ l) n) as [|Hne]; [assumption|].
      assert (existsb (fun l => negb (lenZ l =? n))
        [m_train m; m_val m; m_test m; m_labeled m; m_unlabeled m] = true); [|congruence].
      apply existsb_exists. exists l. split; [exact Hl|]. lia. }
    assert (HLt := HL (m_train m) ltac:(cbn; auto)). assert (HLv := HL (m_val m) ltac:(cbn; auto)).
    assert (HLe := HL (m_test m) ltac:(cbn; auto)). assert (HLl := HL (m_labeled m) ltac:(cbn; auto)).
    assert (HLu := HL (m_unlabeled m) ltac:(cbn; auto 6)).
    unfold lenZ in HLt, HLv, HLe, HLl, HLu.
    destruct (existsb _ (combine (m_labeled m) _)) eqn:H1; [discriminate|].
    rewrite pairs_nth in H1 by (reflexivity || lia).
    destruct (negb _) eqn:H2; [discriminate|]. rewrite negb_false_iff, bools_eqb_nth in H2.
    destruct H2 as [_ H2].
    destruct (_ || _) eqn:H3; [discriminate|]. rewrite !orb_false_iff in H3.
    destruct H3 as [[H3 H4] H5]. unfold any_both in H3, H4, H5.
    rewrite pairs_nth in H3, H4, H5 by (reflexivity || lia). intros _.
    assert (Han : forall k, nth k (m_unlabeled m) false =
                    nth k (m_train m) false && negb (nth k (m_labeled m) false)).
    { intros k. rewrite H2. assert (Hll : length (m_train m) = length (m_labeled m)) by lia.
      assert (Hex : and_not (m_train m) (m_labeled m) =
        Ok (map (fun p => fst p && negb (snd p)) (combine (m_train m) (m_labeled m)))).
      { unfold and_not. rewrite Hll, Nat.eqb_refl. reflexivity. }
      destruct (and_not_nth _ _ _ Hll Hex) as [_ Hk]. apply Hk. }
    constructor; unfold on.
    + exact HL.
    + intros i. specialize (H1 (Z.to_nat i)). cbn in H1. destruct (nth _ (m_labeled m) _); [|discriminate].
      destruct (nth _ (m_train m) _); [reflexivity|discriminate].
    + intros i. rewrite Han. destruct (nth _ (m_train m) _), (nth _ (m_labeled m) _); cbn; intuition congruence.
    + intros i. specialize (H3 (Z.to_nat i)). specialize (H4 (Z.to_nat i)). specialize (H5 (Z.to_nat i)).
      cbn in H3, H4, H5.
      destruct (nth _ (m_train m) _), (nth _ (m_val m) _), (nth _ (m_test m) _); cbn in *; intuition congruence.
  - intros [HL Hla Hun Hd].
    assert (HLt := HL (m_train m) ltac:(cbn; auto)). assert (HLv := HL (m_val m) ltac:(cbn; auto)).
    assert (HLe := HL (m_test m) ltac:(cbn; auto)). assert (HLl := HL (m_labeled m) ltac:(cbn; auto)).
    assert (HLu := HL (m_unlabeled m) ltac:(cbn; auto 6)).
    destruct (existsb _ [_; _; _; _; _]) eqn:Hlen.
    { apply existsb_exists in Hlen. destruct Hlen as (l & Hl & Hb). apply HL in Hl. lia. }
    unfold lenZ in HLt, HLv, HLe, HLl, HLu.
    assert (Hon : forall l k, nth k l false = true <-> on l (Z.of_nat k)).
    { intros l k. unfold on. rewrite Nat2Z.id. reflexivity. }
    rewrite (proj2 (pairs_nth (fun p => fst p && negb (snd p)) (m_labeled m) (m_train m)
      ltac:(lia) eq_refl)).
    2:{ intros k. cbn. destruct (nth k (m_labeled m) false) eqn:E; [|reflexivity].
        apply Hon in E. apply Hla in E. apply Hon in E. rewrite E. reflexivity. }
    rewrite (proj2 (bools_eqb_nth _ _)).
    2:{ assert (Hll : length (m_train m) = length (m_labeled m)) by lia.
        assert (Hex : and_not (m_train m) (m_labeled m) =
          Ok (map (fun p => fst p && negb (snd p)) (combine (m_train m) (m_labeled m)))).
        { unfold and_not. rewrite Hll, Nat.eqb_refl. reflexivity. }
        destruct (and_not_nth _ _ _ Hll Hex) as [Hl2 Hk]. split; [lia|].
        intros k. rewrite Hk. specialize (Hun (Z.of_nat k)). rewrite <- !Hon in Hun.
        destruct (nth k (m_unlabeled m) false), (nth k (m_train m) false), (nth k (m_labeled m) false);
          cbn; intuition congruence. }
    cbn [negb]. unfold any_both.
    rewrite (proj2 (pairs_nth (fun p => fst p && snd p) (m_train m) (m_val m) ltac:(lia) eq_refl)).
    2:{ intros k. cbn. destruct (Hd (Z.of_nat k)) as (H1 & H2 & H3). rewrite <- !Hon in H1.
        destruct (nth k (m_train m) false), (nth k (m_val m) false); cbn; intuition congruence. }
    rewrite (proj2 (pairs_nth (fun p => fst p && snd p) (m_train m) (m_test m) ltac:(lia) eq_refl)).
    2:{ intros k. cbn. destruct (Hd (Z.of_nat k)) as (H1 & H2 & H3). rewrite <- !Hon in H2.
        destruct (nth k (m_train m) false), (nth k (m_test m) false); cbn; intuition congruence. }
    rewrite (proj2 (pairs_nth (fun p => fst p && snd p) (m_val m) (m_test m) ltac:(lia) eq_refl)).
    2:{ intros k. cbn. destruct (Hd (Z.of_nat k)) as (H1 & H2 & H3). rewrite <- !Hon in H3.
        destruct (nth k (m_val m) false), (nth k (m_test m) false); cbn; intuition congruence. }
    reflexivity.
Qed.

Lemma sample_graph_sound R ord decay ss sl si p y official m :
  sample_graph R ord decay ss sl si p y official = Ok m -> sound_masks (lenZ y) m.
Proof.
  intros E. unfold sample_graph in E. inv_bind E. inv_bind E. injection E as <-.
  destruct a0. apply validate_graph_spec. exact E1.
Qed.

Lemma on_bound m i : 0 <= i -> on m i -> i < lenZ m.
Proof.
  intros Hi. unfold on, lenZ. intros H.
  destruct (Z_lt_le_dec i (Z.of_nat (length m))); [assumption|].
  rewrite nth_overflow in H by lia. discriminate.
Qed.

Lemma on_neg m i : i < 0 -> on m i <-> on m 0.
Proof. intros H. unfold on. replace (Z.to_nat i) with (Z.to_nat 0) by lia. reflexivity. Qed.

Lemma graph_parts_spec R ord ss p y official tr va te :
  argsort_valid ord ->
  (use_official_graph_masks (p_policy p) = true ->
     match official with Some o => usable_masks (lenZ y) o | None => True end) ->
  graph_parts R ord ss p y official = Ok (tr, va, te) ->
  usable_masks (lenZ y) (tr, va, te) /\
  (use_official_graph_masks (p_policy p) = true /\ official = Some (tr, va, te) \/
   (use_official_graph_masks (p_policy p) = false \/ official = None) /\
   exists q, run_split R ord ss y (p_split p) = Ok q /\
     forall i, 0 <= i -> (on tr i <-> In i (train q)) /\ (on va i <-> In i (val q)) /\
                         (on te i <-> In i (test q))).
Proof.
  intros Hv Ho E. unfold graph_parts in E.
  destruct (if use_official_graph_masks (p_policy p) then official else None) as [o|] eqn:Eo.
  - injection E as ->. destruct (use_official_graph_masks (p_policy p)); [|discriminate].
    subst official. split; [apply Ho; reflexivity|]. left; auto.
  - inv_bind E. inv_bind E. inv_bind E. inv_bind E. injection E as <- <- <-.
    destruct (idx_to_mask_spec _ _ _ E1) as [L1 M1].
    destruct (idx_to_mask_spec _ _ _ E2) as [L2 M2].
    destruct (idx_to_mask_spec _ _ _ E3) as [L3 M3].
    pose proof (run_split_partition _ _ _ _ _ _ Hv E0) as Hp. apply partition_facts in Hp.
    destruct Hp as (_ & _ & _ & _ & D1 & D2 & D3).
    split.
    + unfold usable_masks. unfold lenZ in *. split; [lia|]. split; [lia|]. split; [lia|].
      intros i. assert (Hi : exists j, 0 <= j /\ forall m, on m i <-> on m j).
      { destruct (Z_lt_le_dec i 0); [exists 0; split; [lia|]; intros; apply on_neg; assumption|].
        exists i. split; [assumption|]. reflexivity. }
      destruct Hi as (j & Hj & He). rewrite !He, (M1 j Hj), (M2 j Hj), (M3 j Hj).
      specialize (D1 j). specialize (D2 j). specialize (D3 j). tauto.
    + right. split.
      * destruct (use_official_graph_masks (p_policy p)); auto.
      * exists a. split; [exact E0|]. intros i Hi. auto.
Qed.

(* sampling on nodes never fails its own validation unless the official masks are unusable *)
Lemma sample_graph_total R ord decay ss sl si p y official m :
  argsort_valid ord ->
  (use_official_graph_masks (p_policy p) = true ->
     match official with Some o => usable_masks (lenZ y) o | None => True end) ->
  graph_raw R ord decay ss sl si p y official = Ok m ->
  sample_graph R ord decay ss sl si p y official = Ok m /\
  (use_official_graph_masks (p_policy p) = true /\
     official = Some (m_train m, m_val m, m_test m) \/
   (use_official_graph_masks (p_policy p) = false \/ official = None) /\
   exists q, run_split R ord ss y (p_split p) = Ok q /\
     forall i, 0 <= i -> (on (m_train m) i <-> In i (train q)) /\ (on (m_val m) i <-> In i (val q)) /\
                         (on (m_test m) i <-> In i (test q))).
Proof.
  intros Hv Ho E. unfold sample_graph. rewrite E. cbn [bind].
  unfold graph_raw in E. inv_bind E. destruct a as [[tr va] te].
  destruct (graph_parts_spec _ _ _ _ _ _ _ _ _ Hv Ho E0) as [(L1 & L2 & L3 & Hd) Hsrc].
  inv_bind E. inv_bind E. inv_bind E. inv_bind E. inv_bind E. injection E as <-.
  cbn [m_train m_val m_test m_labeled m_unlabeled] in *. split; [|exact Hsrc].
  pose proof (where_true_ascending tr) as Hw.
  destruct (select_labeled_subset _ _ _ _ _ _ _ Hv (ascending_NoDup _ Hw) E2) as (Hl1 & Hl2 & _).
  assert (Hlab : incl a1 (where_true tr)).
  { destruct (i_apply_to (p_imbalance p)).
    - injection E3 as <-. auto.
    - inv_bind E3. destruct a4 as [o so]. injection E3 as <-. cbn.
      destruct (apply_imbalance_subset _ _ _ _ _ _ _ _ _ Hv (ascending_NoDup _ Hl1) E) as [H1 H2].
      eapply incl_tran; eassumption. }
  destruct (idx_to_mask_spec _ _ _ E4) as [L4 M4]. unfold lenZ in *.
  destruct (and_not_nth tr a2 a3 ltac:(lia) E5) as [L5 M5].
  rewrite (proj2 (validate_graph_spec (Z.of_nat (length y)) _)); [reflexivity|].
  constructor; cbn [m_train m_val m_test m_labeled m_unlabeled].
  - unfold lenZ. intros l [<-|[<-|[<-|[<-|[<-|[]]]]]]; lia.
  - intros i Hi. assert (Hj : exists j, 0 <= j /\ forall m, on m i <-> on m j).
    { destruct (Z_lt_le_dec i 0); [exists 0; split; [lia|]; intros; apply on_neg; assumption|].
      exists i. split; [assumption|]. reflexivity. }
    destruct Hj as (j & Hj & He). rewrite He in *. apply M4 in Hi; [|exact Hj].
    apply Hlab in Hi. apply where_true_In in Hi; assumption.
  - intros i. unfold on. rewrite M5.
    destruct (nth _ tr _), (nth _ a2 _); cbn; intuition congruence.
  - exact Hd.
Qed.

(* ------------------------------------------------------- imbalance inside whole samples *)
Lemma class_size_le lab c a b : NoDup a -> incl a b -> class_size lab c a <= class_size lab c b.
Proof.
  intros Hnd Hi. unfold class_size, lenZ. apply inj_le. apply NoDup_incl_length.
  - apply NoDup_filter, Hnd.
  - intros x. rewrite !filter_In. intros [Hx Hc]. auto.
Qed.

Lemma inductive_imbalance R ord decay ss sl si p y n_test r x cap :
  argsort_valid ord ->
  i_kind (p_imbalance p) = ISubsample -> i_max_per_class (p_imbalance p) = Some cap -> 1 <= cap ->
  sample_inductive R ord decay ss sl si p y n_test = Ok r -> publishes r x ->
  forall c,
  class_size (label_at y) c
    (match i_apply_to (p_imbalance p) with
     | ApplyTrain => ix_train x | ApplyLabeled => ix_labeled x end) <= cap.
Proof.
  intros Hv Hk Hm Hcap E Hx c. apply sample_inductive_raw in E.
  unfold inductive_raw in E. inv_bind E. destruct a as [[[tr va] te] base].
  pose proof (inductive_parts_spec _ _ _ _ _ _ _ _ _ _ Hv E0) as Hp.
  assert (Htr : ascending tr).
  { destruct Hp as [(_ & _ & _ & H)|(_ & _ & H)]; apply partition_facts in H; tauto. }
  inv_bind E. destruct a as [adj s1]. inv_bind E. inv_bind E. injection E as <-.
  destruct Hx as [Ha _]. cbn in Ha. injection Ha as H1 H2 H3 H4 H5.
  destruct (i_apply_to (p_imbalance p)) eqn:Eap.
  - rewrite <- H1. rewrite (class_size_perm _ _ _ _ (sortZ_perm adj)).
    destruct (apply_imbalance_subsample R ord decay si tr (label_at y) (p_imbalance p) cap
      (ascending_NoDup _ Htr) Hk Hm Hcap) as (out & s' & Eo & Hs).
    rewrite Eo in E1. injection E1 as <- _. rewrite Hs. lia.
  - injection E1 as <- <-. rewrite <- H4. rewrite (class_size_perm _ _ _ _ (sortZ_perm a0)).
    destruct (select_labeled_subset _ _ _ _ _ _ _ Hv (ascending_NoDup _ Htr) E2) as (Hl & _ & _).
    destruct (apply_imbalance_subsample R ord decay si a (label_at y) (p_imbalance p) cap
      (ascending_NoDup _ Hl) Hk Hm Hcap) as (out & s' & Eo & Hs).
    rewrite Eo in E3. cbn in E3. injection E3 as <-. rewrite Hs. lia.
Qed.

Lemma graph_label_imbalance R ord decay ss sl si p y official m cap :
  argsort_valid ord ->
  i_kind (p_imbalance p) = ISubsample -> i_max_per_class (p_imbalance p) = Some cap -> 1 <= cap ->
  i_apply_to (p_imbalance p) = ApplyLabeled ->
  sample_graph R ord decay ss sl si p y official = Ok m ->
  forall c nodes, NoDup nodes ->
  (forall i, In i nodes -> 0 <= i /\ on (m_labeled m) i /\ label_at y i = c) -> lenZ nodes <= cap.
Proof.
  intros Hv Hk Hm Hcap Hap E c nodes Hnd Hall. unfold sample_graph in E. inv_bind E. inv_bind E.
  injection E as <-. unfold graph_raw in E0. inv_bind E0. destruct a1 as [[tr va] te].
  inv_bind E0. inv_bind E0. inv_bind E0. inv_bind E0. inv_bind E0. injection E0 as <-.
  cbn [m_labeled] in Hall. rewrite Hap in E4.
  destruct (select_labeled_subset _ _ _ _ _ _ _ Hv (ascending_NoDup _ (where_true_ascending tr)) E3)
    as (Hl & _ & _).
  destruct (apply_imbalance_subsample R ord decay si a2 (label_at y) (p_imbalance p) cap
      (ascending_NoDup _ Hl) Hk Hm Hcap) as (out & s' & Eo & Hs).
  rewrite Eo in E4. cbn in E4. injection E4 as <-.
  destruct (idx_to_mask_spec _ _ _ E5) as [_ M].
  specialize (Hs c). assert (class_size (label_at y) c nodes <= class_size (label_at y) c out).
  { apply class_size_le; [exact Hnd|]. intros i Hi. destruct (Hall i Hi) as (H0 & H1 & _).
    apply M; assumption. }
  assert (class_size (label_at y) c nodes = lenZ nodes); [|lia].
  unfold class_size. rewrite filter_all; [reflexivity|]. intros i Hi. apply Z.eqb_eq. apply Hall, Hi.
Qed.

Lemma graph_train_imbalance_ignored R ord decay ss sl si p y official :
  i_apply_to (p_imbalance p) = ApplyTrain ->
  sample_graph R ord decay ss sl si p y official =
  sample_graph R ord decay ss sl si (without_imbalance p) y official.
Proof.
  intros H. unfold sample_graph, graph_raw. rewrite H. reflexivity.
Qed.
