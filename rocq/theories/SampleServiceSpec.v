(* Specification vocabulary for whole samples (C08 - C10, C44): what a user may expect of the index
   sets and masks handed out by sampling.  From the model it uses only the result containers. *)
From Coq Require Import String.
From Verif Require Import Prelude SamplingSpec SamplingModel SampleServiceModel.

(* the index sets of an inductive sample and the array every one of them refers to *)
Record index_sets := {
  ix_train : list Z; ix_val : list Z; ix_test : list Z;
  ix_labeled : list Z; ix_unlabeled : list Z;
  ix_test_base : string
}.

(* r is the dictionary pair that publishes these sets *)
Definition publishes (r : inductive_result) (x : index_sets) : Prop :=
  r_indices r = [("train", ix_train x); ("val", ix_val x); ("test", ix_test x);
                 ("train_labeled", ix_labeled x); ("train_unlabeled", ix_unlabeled x)]%string /\
  r_refs r = [("train", "train"); ("val", "train"); ("test", ix_test_base x);
              ("train_labeled", "train"); ("train_unlabeled", "train")]%string.

(* what the validation of a published dictionary promises *)
Definition in_bounds (n : Z) (l : list Z) : Prop := NoDup l /\ forall i, In i l -> 0 <= i < n.

Record sound_dictionary (n_train : Z) (n_test : option Z) (r : inductive_result)
  (tr va te la un : list Z) : Prop := {
  sd_train : get (r_indices r) "train" = Some tr;
  sd_val : get (r_indices r) "val" = Some va;
  sd_test : get (r_indices r) "test" = Some te;
  sd_labeled : get (r_indices r) "train_labeled" = Some la;
  sd_unlabeled : get (r_indices r) "train_unlabeled" = Some un;
  sd_bounds : forall name idx, In (name, idx) (r_indices r) -> idx <> [] ->
    if String.eqb (ref_of (r_refs r) name) "train" then in_bounds n_train idx
    else exists nt, n_test = Some nt /\ in_bounds nt idx;
  sd_train_ref : ref_of (r_refs r) "train" = "train"%string;
  sd_val_ref : ref_of (r_refs r) "val" = "train"%string;
  sd_train_val : forall i, In i tr -> In i va -> False;
  sd_test_apart : ref_of (r_refs r) "test" = "train"%string ->
    forall i, In i te -> ~ In i tr /\ ~ In i va;
  sd_labels_apart : forall i, In i la -> In i un -> False;
  sd_labels_cover : Permutation (la ++ un) tr
}.

(* masks over n nodes *)
Definition on (m : list bool) (i : Z) : Prop := nth (Z.to_nat i) m false = true.

Record sound_masks (n : Z) (m : masks) : Prop := {
  sm_lengths : forall l, In l [m_train m; m_val m; m_test m; m_labeled m; m_unlabeled m] ->
    lenZ l = n;
  sm_labeled : forall i, on (m_labeled m) i -> on (m_train m) i;
  sm_unlabeled : forall i, on (m_unlabeled m) i <-> on (m_train m) i /\ ~ on (m_labeled m) i;
  sm_disjoint : forall i,
    ~ (on (m_train m) i /\ on (m_val m) i) /\ ~ (on (m_train m) i /\ on (m_test m) i) /\
    ~ (on (m_val m) i /\ on (m_test m) i)
}.

(* official masks that are usable: right length, pairwise disjoint *)
Definition usable_masks (n : Z) (o : list bool * list bool * list bool) : Prop :=
  let '(tr, va, te) := o in
  lenZ tr = n /\ lenZ va = n /\ lenZ te = n /\
  forall i, ~ (on tr i /\ on va i) /\ ~ (on tr i /\ on te i) /\ ~ (on va i /\ on te i).

(* the same plan without any imbalance *)
Definition without_imbalance (p : plan) : plan :=
  {| p_split := p_split p; p_labeling := p_labeling p;
     p_imbalance := {| i_kind := INone; i_apply_to := ApplyTrain; i_max_per_class := None;
                       i_alpha := None; i_min_per_class := 1 |};
     p_policy := p_policy p |}.
