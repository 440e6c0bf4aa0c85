(* What a written plan says (C167, C168). *)
From Coq Require Import String.
From Verif Require Import Prelude FloatModel PreprocModel ViewsModel PyValue PplanModel.
Local Open Scope string_scope.
Local Open Scope Z_scope.
Local Open Scope list_scope.
Local Notation length := List.length.

Definition absent (d : pydict) (k : string) : Prop := lookup d k = None.
(* absent or null *)
Definition unset (d : pydict) (k : string) : Prop := lookup d k = None \/ lookup d k = Some PNone.
Definition only (d : pydict) (ks : list string) : Prop := forall k v, In (k, v) d -> In k ks.

(* the name of a step, under one of its two keys or under both *)
Definition id_written (d : pydict) (id : string) : Prop :=
  id <> "" /\ ((lookup d "id" = Some (PStr id) /\ absent d "step_id") \/ (absent d "id" /\ lookup d "step_id" = Some (PStr id)) \/
               (lookup d "id" = Some (PStr id) /\ lookup d "step_id" = Some (PStr id))).
Definition params_written (d : pydict) (p : pydict) : Prop := lookup d "params" = Some (PDict p) \/ (unset d "params" /\ p = []).
Definition texts_written (d : pydict) (k : string) (l : list string) : Prop := lookup d k = Some (PList (map PStr l)) \/ (unset d k /\ l = []).
Definition enabled_written (d : pydict) (b : bool) : Prop := lookup d "enabled" = Some (PBool b) \/ (absent d "enabled" /\ b = true).
Definition step_written (v : pyval) (c : config pydict) : Prop :=
  exists d, v = PDict d /\ only d ["id"; "step_id"; "params"; "modalities"; "requires_fields"; "enabled"] /\ id_written d (c_id c) /\
  params_written d (c_params c) /\ texts_written d "modalities" (c_modalities c) /\ texts_written d "requires_fields" (c_requires c) /\ enabled_written d (c_enabled c).
Definition list_written (d : pydict) (k : string) (l : list pyval) : Prop := lookup d k = Some (PList l) \/ (absent d k /\ l = []).
Definition plan_written (v : pyval) (p : pplan) : Prop :=
  exists d items, v = PDict d /\ only d ["output_key"; "steps"] /\
  (lookup d "output_key" = Some (PStr (pl_key p)) \/ (absent d "output_key" /\ pl_key p = "features.X")) /\
  list_written d "steps" items /\ Forall2 step_written items (pl_steps p).

(* what is wrong with a step *)
Inductive bad_step : pyval -> Prop :=
| Step_kind v : (forall d, v <> PDict d) -> bad_step v
| Step_key d k x ks : ks = ["id"; "step_id"; "params"; "modalities"; "requires_fields"; "enabled"] -> In (k, x) d -> ~ In k ks -> bad_step (PDict d)
| Step_nameless d : (unset d "id" \/ lookup d "id" = Some (PStr "")) -> (unset d "step_id" \/ lookup d "step_id" = Some (PStr "")) -> bad_step (PDict d)
| Step_conflict d a b : lookup d "id" = Some (PStr a) -> lookup d "step_id" = Some (PStr b) -> a <> b -> bad_step (PDict d)
| Step_params d l x : lookup d "params" = Some (PList (x :: l)) -> bad_step (PDict d).
Inductive bad_plan : pyval -> Prop :=
| Plan_kind v : (forall d, v <> PDict d) -> bad_plan v
| Plan_key d k x : In (k, x) d -> k <> "output_key" -> k <> "steps" -> bad_plan (PDict d)
| Plan_steps d v : lookup d "steps" = Some v -> (forall l, v <> PList l) -> bad_plan (PDict d)
| Plan_step d l v : lookup d "steps" = Some (PList l) -> In v l -> bad_step v -> bad_plan (PDict d).

(* what is wrong with a plan for the library: nothing is said of unknown keys, nor of a step without name *)
Inductive bad_library_step : pyval -> Prop :=
| Lib_kind v : (forall d, v <> PDict d) -> bad_library_step v
| Lib_nameless d : (unset d "id" \/ lookup d "id" = Some (PStr "")) -> lookup d "step_id" = Some (PStr "") -> bad_library_step (PDict d)
| Lib_params d l x : lookup d "params" = Some (PList (x :: l)) -> bad_library_step (PDict d).
Inductive bad_library_plan : pyval -> Prop :=
| Lib_plan v : (forall d, v <> PDict d) -> bad_library_plan v
| Lib_steps d v : lookup d "steps" = Some v -> (forall l, v <> PList l) -> v <> PStr "" -> bad_library_plan (PDict d)
| Lib_step d l v : lookup d "steps" = Some (PList l) -> In v l -> bad_library_step v -> bad_library_plan (PDict d).

(* ---- views *)
Inductive mode_named : string -> mode -> Prop :=
| Named_all : mode_named "all" All | Named_indices : mode_named "indices" Indices | Named_random : mode_named "random" Random
| Named_complement : mode_named "complement" Complement
| Named_other s : s <> "all" -> s <> "indices" -> s <> "random" -> s <> "complement" -> mode_named s Other.
(* the double nearest to one half *)
Definition one_half : f64 := SpecFloat.S754_finite false 4503599627370496 (-53).
Definition columns_written (v : pyval) (s : columns_spec) : Prop :=
  exists d, v = PDict d /\ only d ["mode"; "indices"; "fraction"; "complement_of"; "seed_offset"] /\
  ((exists m, lookup d "mode" = Some (PStr m) /\ mode_named m (cs_mode s)) \/ (absent d "mode" /\ cs_mode s = All)) /\
  (lookup d "indices" = Some (PList (map PInt (cs_indices s))) \/ (unset d "indices" /\ cs_indices s = [])) /\
  (lookup d "fraction" = Some (PFloat (cs_fraction s)) \/ (absent d "fraction" /\ cs_fraction s = one_half)) /\
  ((exists t, t <> "" /\ lookup d "complement_of" = Some (PStr t) /\ cs_complement_of s = Some t) \/ (unset d "complement_of" /\ cs_complement_of s = None)) /\
  (lookup d "seed_offset" = Some (PInt (cs_seed_offset s)) \/ (absent d "seed_offset" /\ cs_seed_offset s = 0)).
Definition view_written (v : pyval) (s : view_spec pplan) : Prop :=
  exists d, v = PDict d /\ only d ["name"; "preprocess"; "columns"; "meta"] /\ lookup d "name" = Some (PStr (v_name s)) /\ v_name s <> "" /\
  ((exists x p, lookup d "preprocess" = Some x /\ plan_written x p /\ v_preprocess s = Some p) \/ (unset d "preprocess" /\ v_preprocess s = None)) /\
  ((exists x c, lookup d "columns" = Some x /\ columns_written x c /\ v_columns s = Some c) \/ (unset d "columns" /\ v_columns s = None)) /\
  ((exists m, lookup d "meta" = Some (PDict m)) \/ unset d "meta").
Definition views_written (v : pyval) (vs : list (view_spec pplan)) : Prop :=
  exists d items, v = PDict d /\ only d ["views"] /\ list_written d "views" items /\ Forall2 view_written items vs.
Inductive bad_view : pyval -> Prop :=
| View_kind v : (forall d, v <> PDict d) -> bad_view v
| View_key d k x : In (k, x) d -> ~ In k ["name"; "preprocess"; "columns"; "meta"] -> bad_view (PDict d)
| View_nameless d : absent d "name" \/ lookup d "name" = Some (PStr "") -> bad_view (PDict d)
| View_preprocess d x : lookup d "preprocess" = Some x -> x <> PNone -> bad_plan x -> bad_view (PDict d)
| View_columns d c k x : lookup d "columns" = Some (PDict c) -> In (k, x) c -> ~ In k ["mode"; "indices"; "fraction"; "complement_of"; "seed_offset"] -> bad_view (PDict d)
| View_meta d l : lookup d "meta" = Some (PList l) -> bad_view (PDict d).
Inductive bad_views : pyval -> Prop :=
| Views_kind v : (forall d, v <> PDict d) -> bad_views v
| Views_key d k x : In (k, x) d -> k <> "views" -> bad_views (PDict d)
| Views_view d l v : lookup d "views" = Some (PList l) -> In v l -> bad_view v -> bad_views (PDict d).
