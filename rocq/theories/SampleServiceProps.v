(* Property theorems about whole samples: C08, C09, C10, C44.
   Specification vocabulary: SamplingSpec.v, SampleServiceSpec.v. *)
From Coq Require Import String.
From Verif Require Import Prelude FloatModel SamplingSpec SamplingModel SampleServiceModel
  SampleServiceSpec SampleServiceProofs SamplingWitness SamplingProps.

(* ---- C08: an inductive sample always passes its own validation, and what it contains *)
Theorem C08_sample_never_fails_validation :
  forall R ord decay s_split s_label s_imb p y n_test r,
  argsort_valid ord ->
  inductive_raw R ord decay s_split s_label s_imb p y n_test = Ok r ->
  sample_inductive R ord decay s_split s_label s_imb p y n_test = Ok r.
Proof. exact sample_inductive_total. Qed.
Print Assumptions C08_sample_never_fails_validation.

Theorem C08_sample_contents :
  forall R ord decay s_split s_label s_imb p y n_test r,
  argsort_valid ord ->
  sample_inductive R ord decay s_split s_label s_imb p y n_test = Ok r ->
  exists x split_train,
    publishes r x /\
    ascending (ix_train x) /\ incl (ix_train x) split_train /\
    (i_apply_to (p_imbalance p) = ApplyLabeled \/ i_kind (p_imbalance p) = INone ->
       ix_train x = split_train) /\
    is_partition (fun i => In i (ix_train x)) [ix_labeled x; ix_unlabeled x] /\
    let keep_official := n_test <> None /\ respect_official_test (p_policy p) = true /\
                         allow_override_official (p_policy p) = false in
    ((keep_official /\ ix_test_base x = "test"%string /\
      (exists nt, n_test = Some nt /\ ix_test x = arange nt) /\
      is_partition (fun i => 0 <= i < lenZ y) [split_train; ix_val x; []]) \/
     (~ keep_official /\ ix_test_base x = "train"%string /\
      is_partition (fun i => 0 <= i < lenZ y) [split_train; ix_val x; ix_test x])).
Proof.
  intros R ord decay ss sl si p y n_test r Hv E.
  exact (inductive_raw_spec _ _ _ _ _ _ _ _ _ _ Hv (sample_inductive_raw _ _ _ _ _ _ _ _ _ _ E)).
Qed.
Print Assumptions C08_sample_contents.

(* validation accepts exactly the sound dictionaries, whoever built them *)
Theorem C08_validation_exact :
  forall n_train n_test r,
  validate_inductive n_train n_test r = Ok tt <->
  exists tr va te la un, sound_dictionary n_train n_test r tr va te la un.
Proof. exact validate_inductive_spec. Qed.
Print Assumptions C08_validation_exact.

Definition demo_labels : list Z := [0; 0; 0; 0; 0; 1; 1; 1; 1; 1; 0; 0].
Definition demo_plan (k : imb_kind) (a : imb_target) (official : bool) : plan :=
  {| p_split := Holdout quarter quarter true true;
     p_labeling := spec_count 3 1;
     p_imbalance := {| i_kind := k; i_apply_to := a; i_max_per_class := Some 2;
                       i_alpha := None; i_min_per_class := 1 |};
     p_policy := {| respect_official_test := true; use_official_graph_masks := official;
                    allow_override_official := false |} |}.
Definition no_decay : f64 -> Z -> nat -> Z := fun _ m _ => m.

Example C08_example_split :
  sample_inductive flip_rng stable_argsort no_decay true true true
    (demo_plan ISubsample ApplyTrain true) demo_labels None
  = Ok {| r_indices := [("train", [2; 3; 7; 8]); ("val", [4; 6]); ("test", [5; 10; 11]);
                        ("train_labeled", [2; 3; 7]); ("train_unlabeled", [8])]%string;
          r_refs := [("train", "train"); ("val", "train"); ("test", "train");
                     ("train_labeled", "train"); ("train_unlabeled", "train")]%string |}.
Proof. vm_compute. reflexivity. Qed.

Example C08_example_official :
  sample_inductive flip_rng stable_argsort no_decay true true true
    (demo_plan INone ApplyTrain true) demo_labels (Some 4)
  = Ok {| r_indices := [("train", [0; 1; 2; 3; 4; 6; 7; 8; 9]); ("val", [5; 10; 11]);
                        ("test", [0; 1; 2; 3]);
                        ("train_labeled", [3; 4; 6]); ("train_unlabeled", [0; 1; 2; 7; 8; 9])]%string;
          r_refs := [("train", "train"); ("val", "train"); ("test", "test");
                     ("train_labeled", "train"); ("train_unlabeled", "train")]%string |}.
Proof. vm_compute. reflexivity. Qed.

(* ---- C44: the labelling part of a plan and its seed do not influence train, val and test *)
Theorem C44_labelling_does_not_move_the_split :
  forall R ord decay s_split s_label s_label' s_imb p p' y n_test r r' x x',
  p_split p = p_split p' -> p_policy p = p_policy p' -> p_imbalance p = p_imbalance p' ->
  sample_inductive R ord decay s_split s_label s_imb p y n_test = Ok r ->
  sample_inductive R ord decay s_split s_label' s_imb p' y n_test = Ok r' ->
  publishes r x -> publishes r' x' ->
  ix_train x = ix_train x' /\ ix_val x = ix_val x' /\ ix_test x = ix_test x' /\
  ix_test_base x = ix_test_base x'.
Proof. exact inductive_streams. Qed.
Print Assumptions C44_labelling_does_not_move_the_split.

Definition relabelled (p : plan) : plan :=
  {| p_split := p_split p; p_labeling := spec_count 2 1; p_imbalance := p_imbalance p;
     p_policy := p_policy p |}.
Example C44_example :
  exists r r' x x',
  let p := demo_plan INone ApplyTrain true in
  sample_inductive flip_rng stable_argsort no_decay true true true p demo_labels None = Ok r /\
  sample_inductive flip_rng stable_argsort no_decay true false true (relabelled p) demo_labels None
    = Ok r' /\
  publishes r x /\ publishes r' x' /\ ix_labeled x <> ix_labeled x'.
Proof.
  eexists. eexists.
  eexists {| ix_train := _; ix_val := _; ix_test := _; ix_labeled := _; ix_unlabeled := _;
             ix_test_base := _ |}.
  eexists {| ix_train := _; ix_val := _; ix_test := _; ix_labeled := _; ix_unlabeled := _;
             ix_test_base := _ |}.
  cbv zeta. split; [vm_compute; reflexivity|]. split; [vm_compute; reflexivity|].
  split; [split; reflexivity|]. split; [split; reflexivity|]. cbn. discriminate.
Qed.

(* ---- C09: masks of a graph sample *)
Theorem C09_graph_masks_sound :
  forall R ord decay s_split s_label s_imb p y official m,
  sample_graph R ord decay s_split s_label s_imb p y official = Ok m ->
  sound_masks (lenZ y) m.
Proof. exact sample_graph_sound. Qed.
Print Assumptions C09_graph_masks_sound.

(* validation accepts exactly the sound masks *)
Theorem C09_validation_exact :
  forall n m, validate_graph n m = Ok tt <-> sound_masks n m.
Proof. exact validate_graph_spec. Qed.
Print Assumptions C09_validation_exact.

(* the sample's train/val/test masks are the official ones (when used) or those of the split, and
   validation can fail only because of unusable official masks *)
Theorem C09_graph_masks_origin :
  forall R ord decay s_split s_label s_imb p y official m,
  argsort_valid ord ->
  (use_official_graph_masks (p_policy p) = true ->
     match official with Some o => usable_masks (lenZ y) o | None => True end) ->
  graph_raw R ord decay s_split s_label s_imb p y official = Ok m ->
  sample_graph R ord decay s_split s_label s_imb p y official = Ok m /\
  (use_official_graph_masks (p_policy p) = true /\
     official = Some (m_train m, m_val m, m_test m) \/
   (use_official_graph_masks (p_policy p) = false \/ official = None) /\
   exists q, run_split R ord s_split y (p_split p) = Ok q /\
     forall i, 0 <= i ->
       (on (m_train m) i <-> In i (train q)) /\ (on (m_val m) i <-> In i (val q)) /\
       (on (m_test m) i <-> In i (test q))).
Proof. exact sample_graph_total. Qed.
Print Assumptions C09_graph_masks_origin.

Example C09_example_official :
  let official := ([true; true; true; false; false], [false; false; false; true; false],
                   [false; false; false; false; true]) in
  let p := demo_plan INone ApplyTrain true in
  usable_masks 5 official /\
  exists m, sample_graph flip_rng stable_argsort no_decay true true true p [0; 1; 0; 1; 0]
              (Some official) = Ok m /\ m_labeled m = [true; true; true; false; false].
Proof.
  cbv zeta. split.
  - repeat split; intros [H1 H2]; revert H1 H2; unfold on;
      generalize (Z.to_nat i); intros [|[|[|[|[|[|k]]]]]]; cbn; discriminate.
  - eexists. split; [vm_compute; reflexivity|reflexivity].
Qed.

(* overlapping official masks are rejected, not silently used *)
Example C09_example_overlap :
  sample_graph flip_rng stable_argsort no_decay true true true (demo_plan INone ApplyTrain true)
    [0; 1; 0] (Some ([true; true; false], [false; true; false], [false; false; true]))
  = Err SamplingValidationError.
Proof. vm_compute. reflexivity. Qed.

(* ---- C10: does a graph sample honour the requested imbalance?  Only the part on labelled nodes. *)
Theorem C10_imbalance_inductive :
  forall R ord decay s_split s_label s_imb p y n_test r x cap,
  argsort_valid ord ->
  i_kind (p_imbalance p) = ISubsample -> i_max_per_class (p_imbalance p) = Some cap -> 1 <= cap ->
  sample_inductive R ord decay s_split s_label s_imb p y n_test = Ok r -> publishes r x ->
  forall c,
  class_size (label_at y) c
    (match i_apply_to (p_imbalance p) with
     | ApplyTrain => ix_train x | ApplyLabeled => ix_labeled x end) <= cap.
Proof. exact inductive_imbalance. Qed.
Print Assumptions C10_imbalance_inductive.

(* missing: apply_to = train, see the refutation *)
Theorem C10_graph_imbalance_labeled_partial :
  forall R ord decay s_split s_label s_imb p y official m cap,
  argsort_valid ord ->
  i_kind (p_imbalance p) = ISubsample -> i_max_per_class (p_imbalance p) = Some cap -> 1 <= cap ->
  i_apply_to (p_imbalance p) = ApplyLabeled ->
  sample_graph R ord decay s_split s_label s_imb p y official = Ok m ->
  forall c nodes, NoDup nodes ->
  (forall i, In i nodes -> 0 <= i /\ on (m_labeled m) i /\ label_at y i = c) -> lenZ nodes <= cap.
Proof. exact graph_label_imbalance. Qed.
Print Assumptions C10_graph_imbalance_labeled_partial.

(* train imbalance has no effect on graphs, whatever its parameters *)
Theorem C10_graph_train_imbalance_ignored :
  forall R ord decay s_split s_label s_imb p y official,
  i_apply_to (p_imbalance p) = ApplyTrain ->
  sample_graph R ord decay s_split s_label s_imb p y official =
  sample_graph R ord decay s_split s_label s_imb (without_imbalance p) y official.
Proof. exact graph_train_imbalance_ignored. Qed.
Print Assumptions C10_graph_train_imbalance_ignored.

(* a cap of 2 per class on the train set leaves 4 train nodes of class 0 *)
Theorem C10_graph_train_imbalance_refuted :
  exists R ord decay s_split s_label s_imb p y m,
  i_kind (p_imbalance p) = ISubsample /\ i_max_per_class (p_imbalance p) = Some 2 /\
  i_apply_to (p_imbalance p) = ApplyTrain /\
  sample_graph R ord decay s_split s_label s_imb p y None = Ok m /\
  (forall i, In i [0; 1; 2; 3] -> on (m_train m) i /\ label_at y i = 0).
Proof.
  exists flip_rng, stable_argsort, no_decay, true, true, true,
    (demo_plan ISubsample ApplyTrain true), demo_labels.
  eexists. repeat (split; [vm_compute; reflexivity|]).
  intros i [<-|[<-|[<-|[<-|[]]]]]; split; reflexivity.
Qed.
Print Assumptions C10_graph_train_imbalance_refuted.

Example C10_example :
  exists m, sample_graph flip_rng stable_argsort no_decay true true true
    (demo_plan ISubsample ApplyLabeled true) demo_labels None = Ok m /\
    on (m_labeled m) 2 /\ on (m_labeled m) 7.
Proof. eexists. split; [vm_compute; reflexivity|split; reflexivity]. Qed.
