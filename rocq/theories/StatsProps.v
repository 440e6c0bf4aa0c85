(* Property theorems about the statistics of a sample: C166.  Specification vocabulary: StatsSpec.v, SampleServiceSpec.v. *)
From Coq Require Import String.
From Verif Require Import Prelude FloatModel SamplingSpec SamplingModel SampleServiceModel SampleServiceSpec SampleServiceProofs SamplingWitness SamplingProps SampleServiceProps
  StatsModel StatsSpec StatsProofs.
Local Open Scope Z_scope.
Local Open Scope list_scope.
Local Notation length := List.length.

(* the statistics of an inductive sample describe the index sets of that very sample: size and number of samples of each class, from the labels of the data
   the indices refer to *)
Theorem C166_inductive :
  forall R ord decay s_split s_label s_imb p y (y_test : option (list Z)) r st x,
  argsort_valid ord ->
  sample_inductive_stats R ord decay s_split s_label s_imb p y y_test = Ok (r, st) -> publishes r x ->
  describes y (ix_train x) (s_train st) /\ describes y (ix_val x) (s_val st) /\ describes y (ix_labeled x) (s_labeled st) /\
  s_unlabeled st = Z.of_nat (length (ix_unlabeled x)) /\ d_n (s_train st) = d_n (s_labeled st) + s_unlabeled st /\
  ((ix_test_base x = "test"%string /\ exists yt, y_test = Some yt /\ describes yt (ix_test x) (s_test st)) \/
   (ix_test_base x = "train"%string /\ describes y (ix_test x) (s_test st))).
Proof.
  intros R ord decay ss sl si p y y_test r st x Hv E [Hi Hr]. pose proof (stats_sample _ _ _ _ _ _ _ _ _ _ _ E) as E0.
  destruct (stats_total _ _ _ _ _ _ _ _ _ _ Hv E0) as (st' & x' & E' & [Hi' Hr'] & D1 & D2 & D3 & D4 & _ & D5). rewrite E in E'. injection E' as <-.
  rewrite Hi in Hi'. rewrite Hr in Hr'. injection Hi' as H1 H2 H3 H4 H5. injection Hr' as H6. rewrite H1, H2, H3, H4, H5, H6.
  split; [exact D1|]. split; [exact D2|]. split; [exact D3|]. split; [exact D4|]. split.
  - rewrite (dist_count _ _ _ D1), (dist_count _ _ _ D3), D4, <- Nat2Z.inj_add, <- app_length, <- H1, <- H4, <- H5.
    destruct (inductive_raw_spec _ _ _ _ _ _ _ _ _ _ Hv (sample_inductive_raw _ _ _ _ _ _ _ _ _ _ E0)) as (x2 & s2 & [Hi2 _] & Ha & _ & _ & Hlab & _).
    rewrite Hi in Hi2. injection Hi2 as K1 _ _ K4 K5. rewrite K1, K4, K5. destruct Hlab as [Hs Hc Hd]. f_equal. apply Permutation_length.
    apply NoDup_Permutation; [apply ListFacts.ascending_NoDup, Ha| |].
    + apply ListFacts.NoDup_app_iff. split; [apply ListFacts.ascending_NoDup, Hs; left; reflexivity|].
      split; [apply ListFacts.ascending_NoDup, Hs; right; left; reflexivity|]. intros i A B. exact (Hd 0%nat 1%nat i ltac:(discriminate) A B).
    + intros i. rewrite in_app_iff, Hc. split.
      * intros (q & [<-|[<-|[]]] & Hq); auto.
      * intros [A|A]; eexists; (split; [|exact A]); cbn; auto.
  - destruct D5 as [(B & _ & yt & Ey & D)|(B & _ & D)]; [left; eauto|right; auto].
Qed.
Print Assumptions C166_inductive.

(* computing them never makes sampling fail and does not change the sample *)
Theorem C166_always :
  forall R ord decay s_split s_label s_imb p y (y_test : option (list Z)) r,
  argsort_valid ord ->
  (sample_inductive R ord decay s_split s_label s_imb p y (option_map (@lenZ Z) y_test) = Ok r <->
   exists st, sample_inductive_stats R ord decay s_split s_label s_imb p y y_test = Ok (r, st)).
Proof.
  intros R ord decay ss sl si p y y_test r Hv. split.
  - intros E. destruct (stats_total _ _ _ _ _ _ _ _ _ _ Hv E) as (st & x & E' & _). eauto.
  - intros (st & E). exact (stats_sample _ _ _ _ _ _ _ _ _ _ _ E).
Qed.
Print Assumptions C166_always.

(* the policy: the recorded base is the one of the indices; an official test set that is said to be ignored is *)
Theorem C166_policy :
  forall R ord decay s_split s_label s_imb p y (y_test : option (list Z)) r st x,
  argsort_valid ord ->
  sample_inductive_stats R ord decay s_split s_label s_imb p y y_test = Ok (r, st) -> publishes r x ->
  i_test_ref (s_policy st) = ix_test_base x /\
  (i_has_official (s_policy st) = true <-> y_test <> None) /\
  (i_official_ignored (s_policy st) = true -> y_test <> None /\ ix_test_base x = "train"%string) /\
  (ix_test_base x = "test"%string <-> y_test <> None /\ respect_official_test (p_policy p) = true /\ allow_override_official (p_policy p) = false) /\
  (respect_official_test (p_policy p) = true -> y_test <> None -> ix_test_base x = "train"%string -> i_official_ignored (s_policy st) = true).
Proof.
  intros R ord decay ss sl si p y y_test r st x Hv E [Hi Hr]. pose proof (stats_sample _ _ _ _ _ _ _ _ _ _ _ E) as E0.
  destruct (stats_total _ _ _ _ _ _ _ _ _ _ Hv E0) as (st' & x' & E' & [Hi' Hr'] & _ & _ & _ & _ & P & D5). rewrite E in E'. injection E' as <-.
  rewrite Hr in Hr'. injection Hr' as H6. rewrite H6, P. cbn [i_test_ref i_has_official i_official_ignored]. split; [reflexivity|].
  split; [destruct y_test; split; congruence|]. split; [|split].
  - intros Hg. apply andb_prop in Hg. destruct Hg as [Hg G3]. apply andb_prop in Hg. destruct Hg as [G1 G2]. split; [destruct y_test; congruence|].
    destruct D5 as [(B & (K1 & K2) & _)|(B & _)]; [congruence|exact B].
  - destruct D5 as [(B & (K1 & K2) & yt & Ey & _)|(B & K & _)].
    + split; [intros _; split; [congruence|auto]|intros _; exact B].
    + split; [congruence|]. intros (G1 & G2 & G3). exfalso. destruct K as [K|[K|K]]; congruence.
  - intros G1 G2 G3. destruct D5 as [(B & _)|(B & K & _)]; [congruence|]. rewrite G1. destruct y_test; [|congruence]. destruct K as [K|[K|K]]; try congruence.
    rewrite K. reflexivity.
Qed.
Print Assumptions C166_policy.

(* but an official test set that is not respected is replaced without being recorded as ignored *)
Theorem C166_ignored_refuted :
  exists R ord decay s_split s_label s_imb p y yt r st x,
  argsort_valid ord /\ sample_inductive_stats R ord decay s_split s_label s_imb p y (Some yt) = Ok (r, st) /\ publishes r x /\
  ix_test_base x = "train"%string /\ i_has_official (s_policy st) = true /\ i_official_ignored (s_policy st) = false.
Proof.
  exists flip_rng, stable_argsort, no_decay, true, true, true.
  exists {| p_split := Holdout quarter quarter true true; p_labeling := spec_count 3 1;
     p_imbalance := {| i_kind := INone; i_apply_to := ApplyTrain; i_max_per_class := None; i_alpha := None; i_min_per_class := 1 |};
     p_policy := {| respect_official_test := false; use_official_graph_masks := false; allow_override_official := false |} |}, demo_labels, [1; 0; 1; 2].
  eexists. eexists. eexists {| ix_train := _; ix_val := _; ix_test := _; ix_labeled := _; ix_unlabeled := _; ix_test_base := _ |}.
  split; [exact stable_argsort_valid|]. split; [vm_compute; reflexivity|]. split; [split; reflexivity|]. split; [reflexivity|]. split; reflexivity.
Qed.
Print Assumptions C166_ignored_refuted.

(* graphs: the counts are the numbers of nodes of the masks, and the classes those of the labelled nodes *)
Theorem C166_graph :
  forall R ord decay s_split s_label s_imb p y official m st,
  argsort_valid ord ->
  sample_graph_stats R ord decay s_split s_label s_imb p y official = Ok (m, st) ->
  g_nodes st = Z.of_nat (length y) /\ counts_nodes (m_train m) (g_train st) /\ counts_nodes (m_val m) (g_val st) /\ counts_nodes (m_test m) (g_test st) /\
  counts_nodes (m_labeled m) (g_labeled st) /\ counts_nodes (m_unlabeled m) (g_unlabeled st) /\ g_train st = g_labeled st + g_unlabeled st /\
  exists labeled, NoDup labeled /\ (forall i, In i labeled <-> 0 <= i /\ on (m_labeled m) i) /\ describes y labeled (g_dist st) /\ d_n (g_dist st) = g_labeled st.
Proof.
  intros R ord decay ss sl si p y official m st Hv E. pose proof (graph_stats_sample _ _ _ _ _ _ _ _ _ _ _ E) as E0.
  destruct (graph_stats_total _ _ _ _ _ _ _ _ _ _ Hv E0) as (st' & l & E' & G0 & G1 & G2 & G3 & G4 & G5 & L1 & L2 & D). rewrite E in E'. injection E' as <-.
  pose proof (sample_graph_sound _ _ _ _ _ _ _ _ _ _ E0) as Hs.
  split; [exact G0|]. split; [exact G1|]. split; [exact G2|]. split; [exact G3|]. split; [exact G4|]. split; [exact G5|].
  split; [exact (graph_sums _ _ _ _ _ Hs G1 G4 G5)|]. exists l. split; [exact L1|]. split; [exact L2|]. split; [exact D|].
  rewrite (dist_count _ _ _ D). apply (counts_unique (m_labeled m)); [|exact G4]. exists l. auto.
Qed.
Print Assumptions C166_graph.

Theorem C166_graph_always :
  forall R ord decay s_split s_label s_imb p y official m,
  argsort_valid ord ->
  (sample_graph R ord decay s_split s_label s_imb p y official = Ok m <->
   exists st, sample_graph_stats R ord decay s_split s_label s_imb p y official = Ok (m, st)).
Proof.
  intros R ord decay ss sl si p y official m Hv. split.
  - intros E. destruct (graph_stats_total _ _ _ _ _ _ _ _ _ _ Hv E) as (st & l & E' & _). eauto.
  - intros (st & E). exact (graph_stats_sample _ _ _ _ _ _ _ _ _ _ _ E).
Qed.
Print Assumptions C166_graph_always.

Example C166_example :
  exists r st, sample_inductive_stats flip_rng stable_argsort no_decay true true true (demo_plan INone ApplyTrain true) demo_labels (Some [7; 0; 7]) = Ok (r, st) /\
  d_classes (s_train st) = [(0, 5); (1, 4)] /\ d_classes (s_labeled st) = [(0, 2); (1, 1)] /\ s_unlabeled st = 6 /\ d_classes (s_test st) = [(0, 1); (7, 2)].
Proof. eexists. eexists. split; [vm_compute; reflexivity|]. cbn. auto. Qed.
Example C166_example_graph :
  exists m st, sample_graph_stats flip_rng stable_argsort no_decay true true true (demo_plan INone ApplyTrain true) [0; 1; 0; 1; 0]
    (Some ([true; true; true; true; false], [false; false; false; false; true], [false; false; false; false; false])) = Ok (m, st) /\
  g_train st = 4 /\ g_labeled st = 3 /\ g_unlabeled st = 1 /\ d_n (g_dist st) = 3.
Proof. eexists. eexists. split; [vm_compute; reflexivity|]. cbn. auto. Qed.
