(* Specification vocabulary for labelled selection and imbalance.  From the model it only uses the
   record types that represent the user's plan (label_mode, labeling_spec, imbalance_spec). *)
From Coq Require Import SpecFloat.
From Verif Require Import Prelude FloatModel SamplingSpec SamplingModel.

(* the distinct labels occurring in a list of samples *)
Definition distinct_labels (lab : Z -> Z) (l : list Z) : list Z := nodup Z.eq_dec (map lab l).

(* the number of labels the user asks for, before clamping to the available samples *)
Definition requested_labels (m : label_mode) (n_train n_classes t : Z) : Prop :=
  match m with
  | MFraction f => f64_ltb f64_zero f = true /\ f64_leb f f64_one = true /\ rounded_share f n_train t
  | MCount v => t = v
  | MPerClass v => t = v * n_classes
  end.

(* the guaranteed part: min_per_class for every class that has that many samples *)
Definition guaranteed (mn : Z) (lab : Z -> Z) (l : list Z) (c : Z) : Z :=
  if mn <=? class_size lab c l then Z.max 0 mn else 0.
