(* Property theorems about sampling: C01 - C07.
   Specification vocabulary: SamplingSpec.v and LabelingSpec.v. *)
From Coq Require Import SpecFloat.
From Verif Require Import Prelude FloatModel SamplingSpec SamplingModel LabelingSpec SamplingProofs
  KFoldProofs LabelingProofs SamplingWitness.

(* ---- C01: the holdout split is a partition of 0..n-1 in ascending parts of the requested sizes *)
Theorem C01_holdout_partition :
  forall R ord s n lab test_fraction val_fraction stratify sp,
  argsort_valid ord ->
  make_holdout_split R ord s n lab test_fraction val_fraction stratify = Ok sp ->
  0 <= n /\
  is_partition (fun x => 0 <= x < n) [train sp; val sp; test sp] /\
  share_size test_fraction n (lenZ (test sp)) /\
  share_size val_fraction (n - lenZ (test sp)) (lenZ (val sp)).
Proof. exact make_holdout_split_spec. Qed.
Print Assumptions C01_holdout_partition.

(* the only failures: a negative sample count, or a fraction whose product is not a finite number *)
Theorem C01_holdout_failures :
  forall R ord s n lab test_fraction val_fraction stratify e,
  argsort_valid ord ->
  make_holdout_split R ord s n lab test_fraction val_fraction stratify = Err e ->
  (n < 0 /\ e = ValueError) \/
  f64_value (f64_mul test_fraction (f64_of_Z n)) = None \/
  exists m, 0 <= m <= n /\ f64_value (f64_mul val_fraction (f64_of_Z m)) = None.
Proof. exact make_holdout_split_err. Qed.
Print Assumptions C01_holdout_failures.

(* fraction 0.25 *)
Definition quarter : f64 := S754_finite false 4503599627370496 (-54).
Example C01_example :
  argsort_valid stable_argsort /\
  make_holdout_split flip_rng stable_argsort true 10 (fun i => i mod 3) quarter quarter true
  = Ok {| train := [3; 4; 5; 6; 7; 8]; val := [0; 2]; test := [1; 9] |}.
Proof. split; [exact stable_argsort_valid|vm_compute; reflexivity]. Qed.

(* ---- C02: every class contributes floor or ceiling of its proportional share *)
Theorem C02_stratified_proportions :
  forall R ord s lab indices n keep hold s' c,
  argsort_valid ord -> argsort_sorted ord -> 0 < n < lenZ indices ->
  stratified_holdout R ord s lab indices n = (keep, hold, s') ->
  let share := class_size lab c indices * n in
  let total := lenZ indices in
  share / total <= class_size lab c hold <= - (- share / total) /\
  class_size lab c hold <= class_size lab c indices.
Proof. exact stratified_holdout_class. Qed.
Print Assumptions C02_stratified_proportions.

Example C02_example :
  argsort_valid stable_argsort /\ argsort_sorted stable_argsort /\
  stratified_holdout flip_rng stable_argsort true (fun i => i mod 3) [0;1;2;3;4;5;6;7;8;9] 4
  = ([0; 2; 3; 4; 5; 7], [1; 6; 8; 9], false).
Proof.
  split; [exact stable_argsort_valid|]. split; [exact stable_argsort_sorted|vm_compute; reflexivity].
Qed.

(* ---- C03: k-fold test sets partition the data *)
Theorem C03_kfold_rejects :
  forall R ord s n lab k fold stratify shuffle val_fraction,
  k <= 1 \/ fold < 0 \/ k <= fold ->
  make_kfold_split R ord s n lab k fold stratify shuffle val_fraction = Err ValueError.
Proof. exact make_kfold_split_rejects. Qed.
Print Assumptions C03_kfold_rejects.

Theorem C03_kfold_one_fold :
  forall R ord s n lab k fold stratify shuffle val_fraction sp,
  argsort_valid ord ->
  make_kfold_split R ord s n lab k fold stratify shuffle val_fraction = Ok sp ->
  is_partition (fun x => 0 <= x < n) [train sp; val sp; test sp] /\
  (if f64_ltb f64_zero val_fraction
   then share_size val_fraction (Z.max 0 n - lenZ (test sp)) (lenZ (val sp))
   else val sp = []).
Proof. exact make_kfold_one. Qed.
Print Assumptions C03_kfold_one_fold.

Theorem C03_kfold_all_folds :
  forall R ord s n lab k stratify shuffle val_fraction sps,
  argsort_valid ord -> 1 < k ->
  Forall2 (fun fold sp =>
             make_kfold_split R ord s n lab k fold stratify shuffle val_fraction = Ok sp)
          (arange k) sps ->
  is_partition (fun x => 0 <= x < n) (map test sps) /\
  (forall a b, In a sps -> In b sps ->
     if stratify then forall c, class_size lab c (test a) <= class_size lab c (test b) + 1
     else lenZ (test a) <= lenZ (test b) + 1).
Proof. exact make_kfold_all. Qed.
Print Assumptions C03_kfold_all_folds.

Example C03_example :
  exists sps,
  Forall2 (fun fold sp =>
             make_kfold_split flip_rng stable_argsort true 7 (fun i => i mod 2) 3 fold true true quarter
             = Ok sp) (arange 3) sps /\
  map test sps = [[1; 4; 6]; [2; 3]; [0; 5]].
Proof.
  eexists. split.
  - repeat (constructor; [vm_compute; reflexivity|]). constructor.
  - reflexivity.
Qed.

(* Stratified folds are balanced per class but not in total: three singleton classes and k = 2 put
   every sample in fold 0 and leave fold 1 without test data. *)
Theorem C03_stratified_fold_sizes_refuted :
  exists R ord s n lab k sp0 sp1,
  make_kfold_split R ord s n lab k 0 true true f64_zero = Ok sp0 /\
  make_kfold_split R ord s n lab k 1 true true f64_zero = Ok sp1 /\
  lenZ (test sp0) = 3 /\ test sp1 = [] /\ 1 < k <= n.
Proof.
  exists id_rng, stable_argsort, tt, 3, (fun i => i), 2.
  eexists. eexists. split; [vm_compute; reflexivity|]. split; [vm_compute; reflexivity|].
  vm_compute. repeat split; congruence.
Qed.
Print Assumptions C03_stratified_fold_sizes_refuted.

(* ---- C04: the labelled selection is a duplicate-free subset of train *)
Theorem C04_select_labeled_subset :
  forall R ord s train_idx lab spec out,
  argsort_valid ord -> NoDup train_idx ->
  select_labeled R ord s train_idx lab spec = Ok out ->
  ascending out /\ incl out train_idx /\
  (forall c, class_size lab c out <= class_size lab c train_idx).
Proof. exact select_labeled_subset. Qed.
Print Assumptions C04_select_labeled_subset.

Theorem C04_fixed_indices :
  forall R ord s train_idx lab spec fixed,
  l_fixed spec = Some fixed -> train_idx <> [] ->
  (NoDup fixed /\ incl fixed train_idx ->
     exists out, select_labeled R ord s train_idx lab spec = Ok out /\
                 forall x, In x out <-> In x fixed) /\
  (~ (NoDup fixed /\ incl fixed train_idx) ->
     select_labeled R ord s train_idx lab spec = Err SamplingValidationError).
Proof. exact select_labeled_fixed. Qed.
Print Assumptions C04_fixed_indices.

Definition spec_count (v mn : Z) : labeling_spec :=
  {| l_mode := MCount v; l_min_per_class := mn; l_strategy := Proportional; l_fixed := None |}.
Example C04_example :
  select_labeled flip_rng stable_argsort true [0; 2; 3; 4; 7; 8] (fun i => i mod 2) (spec_count 3 1)
  = Ok [3; 4; 8] /\ NoDup [0; 2; 3; 4; 7; 8].
Proof. split; [vm_compute; reflexivity|]. repeat constructor; cbn; intuition lia. Qed.

(* ---- C05: how many labels are selected *)
Theorem C05_select_labeled_size :
  forall R ord s train_idx lab spec t,
  argsort_valid ord -> NoDup train_idx -> train_idx <> [] -> l_fixed spec = None ->
  match l_mode spec with MPerClass v => 0 <= v | _ => True end ->
  requested_labels (l_mode spec) (lenZ train_idx) (lenZ (distinct_labels lab train_idx)) t ->
  let mn := l_min_per_class spec in
  exists out,
    select_labeled R ord s train_idx lab spec = Ok out /\
    lenZ out = Z.max (clampZ 0 (lenZ train_idx) t)
                     (sumZ (map (guaranteed mn lab train_idx) (distinct_labels lab train_idx))) /\
    (forall c, guaranteed mn lab train_idx c <= class_size lab c out) /\
    (forall v c, l_mode spec = MPerClass v -> mn <= v ->
       Z.min v (class_size lab c train_idx) <= class_size lab c out).
Proof. exact select_labeled_size. Qed.
Print Assumptions C05_select_labeled_size.

Example C05_example :
  requested_labels (MCount 3) 6 2 3 /\
  requested_labels (MFraction quarter) 6 2 2 /\
  select_labeled id_rng stable_argsort tt [0; 2; 3; 4; 7; 8] (fun i => i mod 2) (spec_count 5 1)
  = Ok [0; 2; 3; 4; 7].
Proof.
  split; [reflexivity|]. split; [|vm_compute; reflexivity].
  split; [reflexivity|]. split; [reflexivity|].
  apply FloatProofs.round_mul_spec. vm_compute. reflexivity.
Qed.

(* A request for zero labels is not honoured under the default min_per_class = 1. *)
Theorem C05_zero_labels_refuted :
  exists R ord s train_idx lab spec out,
  l_mode spec = MCount 0 /\ l_min_per_class spec = 1 /\
  select_labeled R ord s train_idx lab spec = Ok out /\ out <> [].
Proof.
  exists id_rng, stable_argsort, tt, [0; 1], (fun i => i), (spec_count 0 1).
  eexists. split; [reflexivity|]. split; [reflexivity|]. split; [vm_compute; reflexivity|discriminate].
Qed.
Print Assumptions C05_zero_labels_refuted.

(* ---- C06: per_class labelling.  The general bound is false; it holds, with equality, when every
   class has at least v samples. *)
Theorem C06_per_class_exact_partial :
  forall R ord s train_idx lab spec v,
  argsort_valid ord -> NoDup train_idx -> train_idx <> [] -> l_fixed spec = None ->
  l_mode spec = MPerClass v -> 0 <= v -> l_min_per_class spec <= v ->
  (forall x, In x train_idx -> v <= class_size lab (lab x) train_idx) ->
  exists out, select_labeled R ord s train_idx lab spec = Ok out /\
    forall x, In x train_idx -> class_size lab (lab x) out = v.
Proof. exact select_labeled_per_class_exact. Qed.
Print Assumptions C06_per_class_exact_partial.

(* classes of 1 and 6 samples, 3 labels per class requested: class 1 receives 5 *)
Theorem C06_per_class_refuted :
  exists R ord s train_idx lab spec v out c,
  argsort_valid ord /\ NoDup train_idx /\ l_mode spec = MPerClass v /\ 0 <= v /\
  l_min_per_class spec <= v /\ l_fixed spec = None /\
  select_labeled R ord s train_idx lab spec = Ok out /\ v < class_size lab c out.
Proof.
  exists id_rng, stable_argsort, tt, [0; 1; 2; 3; 4; 5; 6], (fun i => if i =? 0 then 0 else 1),
    {| l_mode := MPerClass 3; l_min_per_class := 1; l_strategy := Proportional; l_fixed := None |},
    3, [0; 1; 2; 3; 4; 5], 1.
  split; [exact stable_argsort_valid|]. split; [repeat constructor; cbn; intuition lia|].
  split; [reflexivity|]. split; [lia|]. split; [cbn; lia|]. split; [reflexivity|].
  split; vm_compute; reflexivity.
Qed.
Print Assumptions C06_per_class_refuted.

Example C06_example :
  forall x, In x [0; 1; 2; 3; 4] -> 2 <= class_size (fun i => i mod 2) (x mod 2) [0; 1; 2; 3; 4].
Proof. intros x H. cbn in H. decompose [or] H; subst; vm_compute; congruence || contradiction. Qed.

(* ---- C07: imbalance only removes samples and honours its caps *)
Theorem C07_imbalance_subset :
  forall R ord decay s idx lab spec out s',
  argsort_valid ord -> NoDup idx ->
  apply_imbalance R ord decay s idx lab spec = Ok (out, s') ->
  ascending out /\ incl out idx.
Proof. exact apply_imbalance_subset. Qed.
Print Assumptions C07_imbalance_subset.

Theorem C07_imbalance_none :
  forall R ord decay s idx lab spec,
  NoDup idx -> i_kind spec = INone ->
  exists out s', apply_imbalance R ord decay s idx lab spec = Ok (out, s') /\
    forall x, In x out <-> In x idx.
Proof. exact apply_imbalance_none. Qed.
Print Assumptions C07_imbalance_none.

Theorem C07_imbalance_subsample :
  forall R ord decay s idx lab spec cap,
  NoDup idx -> i_kind spec = ISubsample -> i_max_per_class spec = Some cap -> 1 <= cap ->
  exists out s', apply_imbalance R ord decay s idx lab spec = Ok (out, s') /\
    forall c, class_size lab c out = Z.min (class_size lab c idx) cap.
Proof. exact apply_imbalance_subsample. Qed.
Print Assumptions C07_imbalance_subsample.

Theorem C07_imbalance_long_tail :
  forall R ord decay s idx lab spec alpha,
  argsort_valid ord -> argsort_sorted ord -> NoDup idx -> idx <> [] ->
  i_kind spec = ILongTail -> i_alpha spec = Some alpha ->
  f64_ltb f64_zero alpha = true -> f64_ltb alpha f64_one = true ->
  (forall m r, 0 <= decay alpha m r) ->
  exists out s' ranking,
    apply_imbalance R ord decay s idx lab spec = Ok (out, s') /\
    Permutation ranking (distinct_labels lab idx) /\
    Sorted (fun a b => class_size lab b idx <= class_size lab a idx) ranking /\
    forall r, (r < length ranking)%nat ->
      let c := nth r ranking 0 in
      let max_count := class_size lab (nth 0 ranking 0) idx in
      class_size lab c out =
      Z.min (class_size lab c idx) (Z.max (decay alpha max_count r) (i_min_per_class spec)).
Proof. exact apply_imbalance_longtail. Qed.
Print Assumptions C07_imbalance_long_tail.

Theorem C07_imbalance_rejects :
  forall R ord decay s idx lab spec,
  idx <> [] ->
  (i_kind spec = ISubsample /\
     match i_max_per_class spec with None => True | Some cap => cap < 1 end) \/
  (i_kind spec = ILongTail /\
     match i_alpha spec with
     | None => True
     | Some a => f64_ltb f64_zero a = false \/ f64_ltb a f64_one = false end) ->
  apply_imbalance R ord decay s idx lab spec = Err ValueError.
Proof. exact apply_imbalance_rejects. Qed.
Print Assumptions C07_imbalance_rejects.

Definition half : f64 := S754_finite false 4503599627370496 (-53).
Definition tail_spec : imbalance_spec :=
  {| i_kind := ILongTail; i_apply_to := ApplyTrain; i_max_per_class := None;
     i_alpha := Some half; i_min_per_class := 1 |}.
Example C07_example :
  f64_ltb f64_zero half = true /\ f64_ltb half f64_one = true /\
  apply_imbalance id_rng stable_argsort (fun _ m r => m / 2 ^ Z.of_nat r) tt
    [0; 1; 2; 3; 4; 5; 6; 7] (fun i => i / 4) tail_spec = Ok ([0; 1; 2; 3; 4; 5], tt).
Proof. repeat split. Qed.
