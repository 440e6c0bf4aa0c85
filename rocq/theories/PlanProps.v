(* Property theorems about plans and seeds: C11, C12, C46. *)
From Coq Require Import String.
From Verif Require Import Prelude FloatModel PyValue SamplingModel SampleServiceModel PlanModel PlanSpec
  PlanProofs SeedModel SeedProofs.
Local Open Scope list_scope.
Local Open Scope string_scope.

(* ---- C11 *)
Theorem C11_plan_round_trip :
  forall o c, normalised c -> exists d, as_dict o c = Ok d /\ from_dict o d = Ok c.
Proof. exact plan_round_trip. Qed.
Print Assumptions C11_plan_round_trip.

(* writing any plan gives a canonical dictionary *)
Theorem C11_dictionary_canonical :
  forall o c d, as_dict o c = Ok d ->
  exists c', from_dict o d = Ok c' /\ normalised c' /\ as_dict o c' = Ok d.
Proof. exact plan_canonical. Qed.
Print Assumptions C11_dictionary_canonical.

Theorem C11_unknown_keys_rejected :
  forall o d, has_unknown_key d -> exists e, from_dict o d = Err e.
Proof. exact from_dict_rejects. Qed.
Print Assumptions C11_unknown_keys_rejected.

Theorem C11_unknown_section_rejected :
  forall o d,
  (exists k, In k (keys d) /\ ~ In k ["split"; "labeling"; "imbalance"; "policy"]) ->
  from_dict o d = Err ValueError.
Proof. exact from_dict_top_level. Qed.
Print Assumptions C11_unknown_section_rejected.

Theorem C11_key_order_irrelevant :
  forall o d d',
  (forall k, lookup d k = lookup d' k) -> (forall k, In k (keys d) <-> In k (keys d')) ->
  from_dict o d = from_dict o d'.
Proof. exact from_dict_order. Qed.
Print Assumptions C11_key_order_irrelevant.

Definition no_parse : Oracle :=
  {| parse_int := fun _ => None; parse_float := fun _ => None; show := fun _ => "" |}.
Definition demo_cfg : plan_cfg :=
  {| c_split := KFold 4 1 true false f64_0_1; c_mode := MPerClass 3; c_per_class := false;
     c_lmin := 2; c_strategy := Balanced; c_fixed := Some [3; 1]; c_ikind := ISubsample;
     c_apply_to := ApplyLabeled; c_imax := PInt 7; c_alpha := PNone; c_imin := 1;
     c_policy := {| respect_official_test := false; use_official_graph_masks := true;
                    allow_override_official := true |} |}.
Example C11_example :
  normalised demo_cfg /\
  (exists d, as_dict no_parse demo_cfg = Ok d) /\
  has_unknown_key [("split", PDict [("kind", PStr "holdout"); ("test_size", PFloat f64_0_2)])] /\
  from_dict no_parse [("split", PDict [("kind", PStr "holdout"); ("test_size", PFloat f64_0_2)])]
    = Err ValueError /\
  (* a plan written by hand with a float cap is accepted and becomes canonical *)
  exists c, from_dict no_parse [("imbalance", PDict [("max_per_class", PFloat (f64_of_Z 5))])] = Ok c /\
            ~ normalised c.
Proof.
  split. { split; [right; eexists; reflexivity|left; reflexivity]. }
  split. { eexists; reflexivity. }
  split.
  { right. left. exists "test_size". split.
    - eexists. split; [reflexivity|]. cbn; auto.
    - unfold documented_split_key. cbn. intuition discriminate. }
  split; [reflexivity|]. eexists. split; [reflexivity|].
  intros [[H|[z H]] _]; discriminate.
Qed.

(* ---- C12: the hashed strings determine their ingredients *)
Theorem C12_sampling_streams :
  forall s l s' l', sampling_payload s l = sampling_payload s' l' -> s = s' /\ l = l'.
Proof. exact sampling_payload_inj. Qed.
Print Assumptions C12_sampling_streams.

Theorem C12_preprocess_streams :
  forall s i l s' i' l',
  preprocess_payload s i l = preprocess_payload s' i' l' -> s = s' /\ i = i' /\ l = l'.
Proof. exact preprocess_payload_inj. Qed.
Print Assumptions C12_preprocess_streams.

Theorem C12_augmentation_streams :
  forall s e i s' e' i',
  augment_payload s e i = augment_payload s' e' i' -> s = s' /\ e = e' /\ i = i'.
Proof. exact augment_payload_inj. Qed.
Print Assumptions C12_augmentation_streams.

(* every derived seed is an unsigned 32-bit number, as numpy's generator expects *)
Theorem C12_seed_ranges :
  forall hash, (forall p x, In x (hash p) -> 0 <= x < 256) ->
  (forall s l, 0 <= derive_seed hash s l < 2 ^ 32) /\
  (forall s i l, 0 <= derive_step_seed hash s i l < 2 ^ 32) /\
  (forall s e i, 0 <= seed_to_rng_seed hash s e i < 2 ^ 32).
Proof.
  intros hash H. split; [intros; apply derive_seed_range, H|].
  split; [intros; apply derive_step_seed_range, H|]. intros; apply seed_to_rng_seed_range.
Qed.
Print Assumptions C12_seed_ranges.

Example C12_example :
  sampling_payload (-12) "split" = "-12:split" /\
  preprocess_payload 7 1 "text.tokenize" = "7|1|text.tokenize" /\
  augment_payload 0 12 345 = "0|12|345" /\
  derive_seed (fun _ => [1%Z; 2%Z; 3%Z; 4%Z; 5%Z]) 0 "" = 16909060%Z.
Proof. repeat split. Qed.

(* ---- C46: the integer mixer behind random walks and anchor sampling *)
Theorem C46_mixed_seed_range : forall seed salt, (0 <= mix_seed32 seed salt < 2 ^ 32)%Z.
Proof. exact mix_seed32_range. Qed.
Print Assumptions C46_mixed_seed_range.

(* different (seed, salt) pairs share their stream: only seed + salt matters *)
Theorem C46_mixed_seeds_distinct_refuted :
  (forall seed salt d, mix_seed32 (seed + d) salt = mix_seed32 seed (salt + d)) /\
  exists s i s' i', (s, i) <> (s', i') /\ mix_seed32 s i = mix_seed32 s' i'.
Proof.
  split; [exact mix_seed32_shift|]. exists 1%Z, 0%Z, 0%Z, 1%Z. split; [discriminate|reflexivity].
Qed.
Print Assumptions C46_mixed_seeds_distinct_refuted.

Example C46_example : mix_seed32 42 0 <> mix_seed32 42 1.
Proof. vm_compute. discriminate. Qed.
