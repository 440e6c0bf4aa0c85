(* Lemmas about StatsModel.v. *)
From Coq Require Import String.
From Verif Require Import Prelude ListFacts FloatModel SamplingSpec SamplingModel SamplingProofs LabelingProofs SampleServiceModel SampleServiceSpec
  SampleServiceProofs StatsModel StatsSpec.
Local Open Scope Z_scope.
Local Open Scope list_scope.
Local Notation length := List.length.

Lemma take_ok y idx : (forall i, In i idx -> 0 <= i < lenZ y) -> take y idx = Ok (map (label y) idx).
Proof.
  induction idx as [|i r IH]; intros H; [reflexivity|]. cbn [take map]. pose proof (H i (or_introl eq_refl)) as Hi. unfold item.
  replace (i <? - lenZ y) with false by (unfold lenZ in *; lia). replace (lenZ y <=? i) with false by (unfold lenZ in *; lia). cbn [orb].
  replace (i <? 0) with false by lia. cbn [bind]. rewrite IH by (intros j Hj; apply H; right; exact Hj). reflexivity.
Qed.
Lemma sorted_strong (l : list Z) : StronglySorted Z.lt l -> Sorted Z.lt l.
Proof. apply StronglySorted_Sorted. Qed.
Lemma combine_fst {A B} (l : list A) (f : A -> B) : map fst (combine l (map f l)) = l.
Proof. induction l as [|x r IH]; [reflexivity|]. cbn. f_equal. exact IH. Qed.
Lemma combine_snd {A B} (l : list A) (f : A -> B) : map snd (combine l (map f l)) = map f l.
Proof. induction l as [|x r IH]; [reflexivity|]. cbn. f_equal. exact IH. Qed.
Lemma combine_In {A B} (l : list A) (f : A -> B) a b : In (a, b) (combine l (map f l)) <-> In a l /\ b = f a.
Proof.
  induction l as [|x r IH]; cbn; [tauto|]. rewrite IH. split.
  - intros [[= <- <-]|[H1 H2]]; auto.
  - intros [[-> | H1] H2]; [left; congruence|right; auto].
Qed.
Lemma distribution_ok y idx : (forall i, In i idx -> 0 <= i < lenZ y) -> exists d, class_distribution y idx = Ok d /\ describes y idx d.
Proof.
  intros H. destruct idx as [|i0 r] eqn:E.
  - exists {| d_n := 0; d_classes := [] |}. split; [reflexivity|]. constructor; cbn; [reflexivity| |constructor|reflexivity].
    intros c k. split; [intros []|]. unfold class_size. cbn. lia.
  - rewrite <- E in *. set (cl := uniqueZ (map (label y) idx)).
    assert (Em : class_distribution y idx = Ok {| d_n := lenZ idx; d_classes := combine cl (map (fun c => countZ c (map (label y) idx)) cl) |}).
    { unfold class_distribution. rewrite (take_ok y idx H). cbn [bind]. rewrite class_counts_eq. unfold unique_counts. fold cl. rewrite E. reflexivity. }
    eexists. split; [exact Em|]. constructor; cbn [d_n d_classes].
    + reflexivity.
    + intros c k. rewrite combine_In. unfold cl. rewrite uniqueZ_In, countZ_pos. rewrite countZ_filter. unfold class_size. split.
      * intros [Hp ->]. split; [exact Hp|reflexivity].
      * intros [Hp ->]. split; [exact Hp|reflexivity].
    + rewrite combine_fst. apply sorted_strong, uniqueZ_ascending.
    + rewrite combine_snd. change (sumZ (map (fun c => countZ c (map (label y) idx)) cl) = lenZ idx).
      rewrite sum_counts_unique; [unfold lenZ; rewrite map_length; reflexivity|apply uniqueZ_NoDup|]. intros v Hv. apply uniqueZ_In, Hv.
Qed.

(* ---- inductive samples *)
Lemma raw_bounds R ord decay ss sl si p y (y_test : option (list Z)) r :
  argsort_valid ord -> inductive_raw R ord decay ss sl si p y (option_map (@lenZ Z) y_test) = Ok r ->
  exists x, publishes r x /\ (forall i, In i (ix_train x) -> 0 <= i < lenZ y) /\ (forall i, In i (ix_val x) -> 0 <= i < lenZ y) /\
    (forall i, In i (ix_labeled x) -> 0 <= i < lenZ y) /\
    ((ix_test_base x = "test"%string /\ (respect_official_test (p_policy p) = true /\ allow_override_official (p_policy p) = false) /\
      exists yt, y_test = Some yt /\ forall i, In i (ix_test x) -> 0 <= i < lenZ yt) \/
     (ix_test_base x = "train"%string /\ (y_test = None \/ respect_official_test (p_policy p) = false \/ allow_override_official (p_policy p) = true) /\
      forall i, In i (ix_test x) -> 0 <= i < lenZ y)).
Proof.
  intros Hv E. destruct (inductive_raw_spec _ _ _ _ _ _ _ _ _ _ Hv E) as (x & st & Hpub & Htr & Hinc & _ & Hlab & Hp). exists x. split; [exact Hpub|].
  assert (Hs : exists te, is_partition (fun i => 0 <= i < lenZ y) [st; ix_val x; te]) by (destruct Hp as [(_ & _ & _ & H)|(_ & _ & H)]; eauto).
  destruct Hs as (te & Hs). apply partition_facts in Hs. destruct Hs as (_ & _ & _ & Hc & _).
  assert (Ht : forall i, In i (ix_train x) -> 0 <= i < lenZ y) by (intros i Hi; apply Hc; left; apply Hinc, Hi).
  split; [exact Ht|]. split; [intros i Hi; apply Hc; auto|]. split.
  { intros i Hi. apply Ht. destruct Hlab as [_ Hlc _]. apply Hlc. exists (ix_labeled x). split; [left; reflexivity|exact Hi]. }
  destruct Hp as [(Hk & Hb & (nt & En & Et) & _)|(Hk & Hb & H)].
  - left. split; [exact Hb|]. destruct Hk as (_ & K2 & K3). split; [split; assumption|].
    destruct y_test as [yt|]; [|discriminate]. injection En as <-. exists yt. split; [reflexivity|]. rewrite Et. intros i. apply arange_In.
  - right. split; [exact Hb|]. split.
    + destruct y_test as [yt|]; [right|left; reflexivity]. unfold official_test_kept in Hk. cbn in Hk.
      destruct (respect_official_test (p_policy p)); [right|left; reflexivity]. destruct (allow_override_official (p_policy p)); [reflexivity|].
      exfalso. apply Hk. split; [discriminate|]. split; reflexivity.
    + apply partition_facts in H. destruct H as (_ & _ & _ & Hc' & _). intros i Hi. apply Hc'. auto.
Qed.

Lemma stats_total R ord decay ss sl si p y (y_test : option (list Z)) r :
  argsort_valid ord -> sample_inductive R ord decay ss sl si p y (option_map (@lenZ Z) y_test) = Ok r ->
  exists st x, sample_inductive_stats R ord decay ss sl si p y y_test = Ok (r, st) /\ publishes r x /\
    describes y (ix_train x) (s_train st) /\ describes y (ix_val x) (s_val st) /\ describes y (ix_labeled x) (s_labeled st) /\
    s_unlabeled st = Z.of_nat (length (ix_unlabeled x)) /\
    s_policy st = {| i_respect := respect_official_test (p_policy p); i_override := allow_override_official (p_policy p);
                     i_has_official := match y_test with Some _ => true | None => false end;
                     i_official_ignored := match y_test with Some _ => true | None => false end && respect_official_test (p_policy p) && allow_override_official (p_policy p);
                     i_test_ref := ix_test_base x |} /\
    ((ix_test_base x = "test"%string /\ (respect_official_test (p_policy p) = true /\ allow_override_official (p_policy p) = false) /\
      exists yt, y_test = Some yt /\ describes yt (ix_test x) (s_test st)) \/
     (ix_test_base x = "train"%string /\ (y_test = None \/ respect_official_test (p_policy p) = false \/ allow_override_official (p_policy p) = true) /\
      describes y (ix_test x) (s_test st))).
Proof.
  intros Hv E0. pose proof (sample_inductive_raw _ _ _ _ _ _ _ _ _ _ E0) as E. unfold sample_inductive in E0. rewrite E in E0. cbn [bind] in E0.
  destruct (validate_inductive (lenZ y) (option_map (@lenZ Z) y_test) r) as [u|e] eqn:Ev; [|discriminate].
  destruct (raw_bounds _ _ _ _ _ _ _ _ _ _ Hv E) as (x & [Hi Hr] & B1 & B2 & B3 & B4).
  destruct (distribution_ok y (ix_train x) B1) as (d1 & E1 & D1). destruct (distribution_ok y (ix_val x) B2) as (d2 & E2 & D2).
  destruct (distribution_ok y (ix_labeled x) B3) as (d3 & E3 & D3).
  assert (Hparts : part r "train" = ix_train x /\ part r "val" = ix_val x /\ part r "test" = ix_test x /\ part r "train_labeled" = ix_labeled x /\
                   part r "train_unlabeled" = ix_unlabeled x /\ ref_of (r_refs r) "test" = ix_test_base x).
  { unfold part. rewrite Hi, Hr. repeat split. }
  destruct Hparts as (P1 & P2 & P3 & P4 & P5 & P6).
  assert (Ht : exists d4, (if String.eqb (ix_test_base x) "train" then class_distribution y (ix_test x)
                           else class_distribution (match y_test with Some y0 => y0 | None => y end) (ix_test x)) = Ok d4 /\
    ((ix_test_base x = "test"%string /\ (respect_official_test (p_policy p) = true /\ allow_override_official (p_policy p) = false) /\
      exists yt, y_test = Some yt /\ describes yt (ix_test x) d4) \/
     (ix_test_base x = "train"%string /\ (y_test = None \/ respect_official_test (p_policy p) = false \/ allow_override_official (p_policy p) = true) /\
      describes y (ix_test x) d4))).
  { destruct B4 as [(Hb & Hk & yt & -> & Hb4)|(Hb & Hk & Hb4)]; rewrite Hb; cbn [String.eqb Ascii.eqb Bool.eqb].
    - destruct (distribution_ok yt (ix_test x) Hb4) as (d4 & E4 & D4). exists d4. split; [exact E4|]. left. eauto.
    - destruct (distribution_ok y (ix_test x) Hb4) as (d4 & E4 & D4). exists d4. split; [exact E4|]. right. auto. }
  destruct Ht as (d4 & E4 & D4).
  eexists {| s_policy := _; s_train := d1; s_val := d2; s_labeled := d3; s_unlabeled := lenZ (ix_unlabeled x); s_test := d4 |}, x. split; [|].
  - unfold sample_inductive_stats. rewrite E. cbn [bind]. rewrite P1, P2, P3, P4, P5, P6. unfold build_inductive_stats. rewrite E1, E2, E3. cbn [bind].
    rewrite E4. cbn [bind]. rewrite Ev. cbn [bind]. reflexivity.
  - cbn [s_train s_val s_labeled s_unlabeled s_policy s_test]. split; [split; assumption|]. split; [exact D1|]. split; [exact D2|]. split; [exact D3|].
    split; [reflexivity|]. split; [reflexivity|]. exact D4.
Qed.
Lemma stats_sample R ord decay ss sl si p y y_test r st :
  sample_inductive_stats R ord decay ss sl si p y y_test = Ok (r, st) -> sample_inductive R ord decay ss sl si p y (option_map (@lenZ Z) y_test) = Ok r.
Proof.
  unfold sample_inductive_stats, sample_inductive. intros E. inv_bind E. rewrite E0. cbn [bind]. inv_bind E. inv_bind E. injection E as <- <-. rewrite E2.
  reflexivity.
Qed.

(* ---- graphs *)
Lemma filter_count (m : list bool) k : length (filter (fun b => b) m) = length (filter (fun i => nth (i - k) m false) (seq k (length m))).
Proof.
  revert k. induction m as [|b r IH]; intros k; [reflexivity|]. cbn [length seq filter]. rewrite Nat.sub_diag. change (nth 0 (b :: r) false) with b.
  assert (E : filter (fun i => nth (i - k) (b :: r) false) (seq (S k) (length r)) = filter (fun i => nth (i - S k) r false) (seq (S k) (length r))).
  { apply filter_ext_in. intros i Hi. apply in_seq in Hi. destruct (i - k)%nat as [|j] eqn:Ej; [lia|]. cbn. f_equal. lia. }
  destruct b; cbn [length]; rewrite E, (IH (S k)); reflexivity.
Qed.
Lemma mask_count_where m : mask_count m = lenZ (where_true m).
Proof.
  unfold mask_count, where_true, lenZ, arange. rewrite Nat2Z.id. f_equal. rewrite (filter_count m 0).
  generalize (seq 0 (length m)). induction l as [|i r IH]; [reflexivity|]. cbn [map filter]. rewrite Nat2Z.id, Nat.sub_0_r.
  destruct (nth i m false); cbn [length]; rewrite IH; reflexivity.
Qed.
Lemma mask_count_spec m : counts_nodes m (mask_count m).
Proof.
  exists (where_true m). split; [apply ascending_NoDup, where_true_ascending|]. split; [|apply mask_count_where].
  intros i. split.
  - intros H. pose proof (where_true_bound _ _ H). split; [lia|]. apply where_true_In; [lia|exact H].
  - intros [H1 H2]. apply where_true_In; assumption.
Qed.
Lemma counts_unique m j k : counts_nodes m j -> counts_nodes m k -> j = k.
Proof.
  intros (a & A1 & A2 & ->) (b & B1 & B2 & ->). f_equal. apply Permutation_length. apply NoDup_Permutation; [exact A1|exact B1|].
  intros i. rewrite A2, B2. reflexivity.
Qed.

Lemma graph_stats_total R ord decay ss sl si p y official m :
  argsort_valid ord -> sample_graph R ord decay ss sl si p y official = Ok m ->
  exists st l, sample_graph_stats R ord decay ss sl si p y official = Ok (m, st) /\
    g_nodes st = lenZ y /\ counts_nodes (m_train m) (g_train st) /\ counts_nodes (m_val m) (g_val st) /\ counts_nodes (m_test m) (g_test st) /\
    counts_nodes (m_labeled m) (g_labeled st) /\ counts_nodes (m_unlabeled m) (g_unlabeled st) /\
    NoDup l /\ (forall i, In i l <-> 0 <= i /\ on (m_labeled m) i) /\ describes y l (g_dist st).
Proof.
  intros Hv Es. pose proof (sample_graph_sound _ _ _ _ _ _ _ _ _ _ Es) as Hs. unfold sample_graph in Es. inv_bind Es. inv_bind Es. injection Es as ->.
  unfold graph_raw in E. inv_bind E. destruct a as [[tr va] te]. inv_bind E. inv_bind E. inv_bind E. inv_bind E. inv_bind E. injection E as <-.
  pose proof (where_true_ascending tr) as Hw.
  destruct (select_labeled_subset _ _ _ _ _ _ _ Hv (ascending_NoDup _ Hw) E3) as (Hl1 & Hl2 & _).
  assert (Hlab : ascending a2 /\ incl a2 (where_true tr)).
  { destruct (i_apply_to (p_imbalance p)).
    - injection E4 as <-. auto.
    - inv_bind E4. destruct a5 as [o so]. injection E4 as <-. cbn.
      destruct (apply_imbalance_subset _ _ _ _ _ _ _ _ _ Hv (ascending_NoDup _ Hl1) E) as [H1 H2].
      split; [exact H1|]. eapply incl_tran; eassumption. }
  destruct Hlab as [Hla Hli].
  assert (Hlen : lenZ tr = lenZ y) by (apply (sm_lengths _ _ Hs); left; reflexivity).
  assert (Hb : forall i, In i a2 -> 0 <= i < lenZ y) by (intros i Hi; rewrite <- Hlen; apply where_true_bound, Hli, Hi).
  destruct (distribution_ok y a2 Hb) as (d & Ed & D).
  eexists {| g_nodes := lenZ y; g_train := _; g_val := _; g_test := _; g_labeled := _; g_unlabeled := _; g_dist := d |}, a2. split.
  - unfold sample_graph_stats. rewrite E1. cbn [bind]. rewrite E2. cbn [bind]. rewrite E3. cbn [bind]. rewrite E4. cbn [bind]. rewrite E5. cbn [bind].
    rewrite E6. cbn [bind]. unfold build_graph_stats. rewrite Ed. cbn [bind]. rewrite E0. cbn [bind]. reflexivity.
  - cbn [g_nodes g_train g_val g_test g_labeled g_unlabeled g_dist m_train m_val m_test m_labeled m_unlabeled].
    split; [reflexivity|]. split; [apply mask_count_spec|]. split; [apply mask_count_spec|]. split; [apply mask_count_spec|]. split; [apply mask_count_spec|].
    split; [apply mask_count_spec|]. split; [apply ascending_NoDup, Hla|]. split; [|exact D].
    destruct (idx_to_mask_spec _ _ _ E5) as [_ M]. intros i. split.
    + intros Hi. pose proof (Hb i Hi). split; [lia|]. apply M; [lia|exact Hi].
    + intros [H1 H2]. apply M; assumption.
Qed.
Lemma graph_stats_sample R ord decay ss sl si p y official m st :
  sample_graph_stats R ord decay ss sl si p y official = Ok (m, st) -> sample_graph R ord decay ss sl si p y official = Ok m.
Proof.
  unfold sample_graph_stats, sample_graph, graph_raw. intros E. inv_bind E. rewrite E0. destruct a as [[tr va] te]. cbn [bind]. inv_bind E. rewrite E1. cbn [bind].
  inv_bind E. rewrite E2. cbn [bind]. inv_bind E. rewrite E3. cbn [bind]. inv_bind E. rewrite E4. cbn [bind]. inv_bind E. rewrite E5. cbn [bind].
  inv_bind E. inv_bind E. injection E as <- <-. rewrite E7. reflexivity.
Qed.
Lemma graph_sums n m kt kl ku : sound_masks n m -> counts_nodes (m_train m) kt -> counts_nodes (m_labeled m) kl -> counts_nodes (m_unlabeled m) ku -> kt = kl + ku.
Proof.
  intros Hs (a & A1 & A2 & ->) (b & B1 & B2 & ->) (c & C1 & C2 & ->). rewrite <- Nat2Z.inj_add, <- app_length. f_equal. apply Permutation_length.
  apply NoDup_Permutation; [exact A1| |].
  - apply NoDup_app_iff. split; [exact B1|]. split; [exact C1|]. intros i Hi Hj. apply B2 in Hi. apply C2 in Hj.
    destruct Hj as [_ Hj]. apply (sm_unlabeled _ _ Hs) in Hj. tauto.
  - intros i. rewrite in_app_iff, A2, B2, C2. rewrite (sm_unlabeled _ _ Hs i). pose proof (sm_labeled _ _ Hs i) as Hl.
    destruct (nth (Z.to_nat i) (m_labeled m) false) eqn:El.
    + unfold on in *. tauto.
    + assert (Hn : ~ on (m_labeled m) i) by (unfold on; congruence). tauto.
Qed.
Lemma dist_count y l d : describes y l d -> d_n d = Z.of_nat (length l).
Proof. intros D. apply (ds_total _ _ _ D). Qed.
