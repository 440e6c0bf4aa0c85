(* Specification vocabulary for plan dictionaries (C11). *)
From Coq Require Import String.
From Verif Require Import Prelude PyValue SampleServiceModel PlanModel.
Local Open Scope list_scope.
Local Open Scope string_scope.

(* the two imbalance fields hold None or a number of the declared type *)
Definition normalised (c : plan_cfg) : Prop :=
  (c_imax c = PNone \/ exists z, c_imax c = PInt z) /\
  (c_alpha c = PNone \/ exists f, c_alpha c = PFloat f).

(* the value stored under a section name has a key outside the documented list *)
Definition section_has (d : pydict) (section key : string) : Prop :=
  exists s, lookup d section = Some (PDict s) /\ In key (keys s).

Definition documented_split_key (k : string) : Prop :=
  In k ["kind"; "stratify"; "shuffle"; "val_fraction"; "test_fraction"; "k"; "fold"].
Definition documented_labeling_key (k : string) : Prop :=
  In k ["mode"; "value"; "per_class"; "min_per_class"; "strategy"; "fixed_indices"].
Definition documented_imbalance_key (k : string) : Prop :=
  In k ["kind"; "apply_to"; "max_per_class"; "alpha"; "min_per_class"].
Definition documented_policy_key (k : string) : Prop :=
  In k ["respect_official_test"; "use_official_graph_masks"; "allow_override_official"].

Definition has_unknown_key (d : pydict) : Prop :=
  (exists k, In k (keys d) /\ ~ In k ["split"; "labeling"; "imbalance"; "policy"]) \/
  (exists k, section_has d "split" k /\ ~ documented_split_key k) \/
  (exists k, section_has d "labeling" k /\ ~ documented_labeling_key k) \/
  (exists k, section_has d "imbalance" k /\ ~ documented_imbalance_key k) \/
  (exists k, section_has d "policy" k /\ ~ documented_policy_key k).
