(* What C151 and C152 say: how a configuration is read. *)
From Coq Require Import String Ascii.
From Verif Require Import Prelude FloatModel PyValue HpoModel HpoSpec LimitsModel LimitsSpec BenchIoModel BenchIoSpec SchemaModel.
Local Open Scope string_scope.
Local Open Scope Z_scope.
Local Open Scope list_scope.

(* ----- one entry of a section ----- *)
(* a text with something in it *)
Definition written (s : string) : Prop := exists c, In c (list_ascii_of_string s) /\ ~ blank c.
Definition text_at (d : pydict) (k s : string) : Prop := lookup d k = Some (PStr s) /\ written s.
Definition text_or_none (d : pydict) (k : string) (x : option string) : Prop := match x with Some s => text_at d k s | None => absent d k end.
(* whole numbers; true and false count as 1 and 0 *)
Definition whole (v : pyval) (z : Z) : Prop := v = PInt z \/ (v = PBool true /\ z = 1) \/ (v = PBool false /\ z = 0).
Definition whole_or_none (d : pydict) (k : string) (x : option Z) : Prop := match x with Some z => exists v, lookup d k = Some v /\ whole v z | None => absent d k end.
Definition positive_or_none (d : pydict) (k : string) (x : option Z) : Prop := whole_or_none d k x /\ (forall z, x = Some z -> 0 < z).
(* yes or no, with a default; null is neither *)
Definition flag (d : pydict) (k : string) (dflt b : bool) : Prop := lookup d k = Some (PBool b) \/ (lookup d k = None /\ b = dflt).
Definition mapping_at (d : pydict) (k : string) (m : pydict) : Prop := lookup d k = Some (PDict m) \/ (absent d k /\ m = []).
Definition list_at (d : pydict) (k : string) (l : list pyval) : Prop := lookup d k = Some (PList l) \/ (absent d k /\ l = []).
(* str() of whatever is there *)
Definition printed (o : Oracle) (d : pydict) (k dflt s : string) : Prop := (lookup d k = None /\ s = dflt) \/ (exists v, lookup d k = Some v /\ s = py_str o v).
(* no key besides these *)
Definition only (d : pydict) (ks : list string) : Prop := forall k, In k (keys d) -> In k ks.
Definition seeds_at (d : pydict) (x : option (list Z)) : Prop :=
  match x with
  | None => absent d "seeds"
  | Some zs => exists l, lookup d "seeds" = Some (PList l) /\ l <> [] /\ Forall2 whole l zs /\ NoDup zs
  end.

(* ----- the sections ----- *)
Definition reads_run (o : Oracle) (d : pydict) (r : RunConfig) : Prop :=
  only d ["name"; "seed"; "seeds"; "output_dir"; "fail_fast"; "log_level"; "benchmark_mode"; "allow_custom_factories"] /\
  text_at d "name" (rn_name r) /\
  ((lookup d "seed" = None /\ rn_seed r = 0) \/ (exists v, lookup d "seed" = Some v /\ py_int o v = Ok (rn_seed r))) /\
  printed o d "output_dir" "modssc_cache/output" (rn_output r) /\ seeds_at d (rn_seeds r) /\
  flag d "fail_fast" true (rn_fail_fast r) /\ text_or_none d "log_level" (rn_log r) /\ flag d "benchmark_mode" false (rn_bench r) /\ flag d "allow_custom_factories" false (rn_custom r) /\
  (rn_bench r = true -> rn_fail_fast r = true).
Definition reads_limits (d : pydict) (l : LimitsConfig) : Prop :=
  only d ["profile"; "max_preprocess_batch_size"; "max_method_batch_size"; "max_method_sup_batch_size"; "max_graph_chunk_size"; "max_train_samples"; "max_test_samples"] /\
  match lc_profile l with None => absent d "profile" | Some p => In p ["auto"; "v100"; "h100"] /\ exists s, lookup d "profile" = Some (PStr s) /\ lower_text s = p end /\
  positive_or_none d "max_preprocess_batch_size" (lc_preprocess_batch l) /\ positive_or_none d "max_method_batch_size" (lc_method_batch l) /\
  positive_or_none d "max_method_sup_batch_size" (lc_method_sup_batch l) /\ positive_or_none d "max_graph_chunk_size" (lc_graph_chunk l) /\
  positive_or_none d "max_train_samples" (lc_train_samples l) /\ positive_or_none d "max_test_samples" (lc_test_samples l).
Definition reads_dataset (d : pydict) (c : DatasetConfig) : Prop :=
  only d ["id"; "options"; "download"; "cache_dir"] /\ text_at d "id" (dc_id c) /\ mapping_at d "options" (dc_options c) /\ flag d "download" true (dc_download c) /\ text_or_none d "cache_dir" (dc_cache c).
Definition reads_plan (d : pydict) (c : PlanConfig) : Prop :=
  only d ["seed"; "plan"] /\ lookup d "plan" = Some (PDict (pl_plan c)) /\ pl_plan c <> [] /\ whole_or_none d "seed" (pl_seed c).
Definition reads_preprocess (d : pydict) (c : PreprocessConfig) : Prop :=
  only d ["seed"; "fit_on"; "cache"; "plan"; "cache_dir"] /\ lookup d "plan" = Some (PDict (pc_plan c)) /\ pc_plan c <> [] /\ whole_or_none d "seed" (pc_seed c) /\
  text_or_none d "fit_on" (pc_fit_on c) /\ flag d "cache" true (pc_cache c) /\ text_or_none d "cache_dir" (pc_cache_dir c).
Definition reads_graph (d : pydict) (c : GraphConfig) : Prop :=
  only d ["enabled"; "seed"; "cache"; "cache_dir"; "spec"] /\ flag d "enabled" false (gc_enabled c) /\ whole_or_none d "seed" (gc_seed c) /\ flag d "cache" true (gc_cache c) /\
  text_or_none d "cache_dir" (gc_cache_dir c) /\ mapping_at d "spec" (gc_spec c).
Definition reads_aug (o : Oracle) (d : pydict) (c : AugConfig) : Prop :=
  only d ["enabled"; "seed"; "mode"; "weak"; "strong"; "modality"] /\ flag d "enabled" true (ac_enabled c) /\ whole_or_none d "seed" (ac_seed c) /\ printed o d "mode" "fixed" (ac_mode c) /\
  mapping_at d "weak" (ac_weak c) /\ mapping_at d "strong" (ac_strong c) /\ text_or_none d "modality" (ac_modality c).
Definition reads_device (o : Oracle) (d : pydict) (c : DeviceConfig) : Prop :=
  only d ["device"; "dtype"; "resolved_device"] /\ printed o d "device" "cpu" (dv_device c) /\ printed o d "dtype" "float32" (dv_dtype c) /\ text_or_none d "resolved_device" (dv_resolved c).
(* a model: none, a factory (only where custom factories are allowed), or a classifier *)
Definition reads_model (custom : bool) (method : pydict) (m : option ModelConfig) : Prop :=
  match m with
  | None => absent method "model"
  | Some (Factory f ps) => custom = true /\ exists d, lookup method "model" = Some (PDict d) /\ only d ["factory"; "params"] /\ text_at d "factory" f /\ mapping_at d "params" ps
  | Some (Classifier i b ps ema) => exists d, lookup method "model" = Some (PDict d) /\ only d ["classifier_id"; "classifier_backend"; "classifier_params"; "ema"] /\ text_at d "classifier_id" i /\
      (text_at d "classifier_backend" b \/ (lookup d "classifier_backend" = None /\ b = "torch")) /\ mapping_at d "classifier_params" ps /\
      match ema with None => absent d "ema" | Some x => lookup d "ema" = Some (PBool x) end
  end.
(* a section that may be left out is an empty one; null is not *)
Definition section (data : pydict) (k : string) (d : pydict) : Prop := lookup data k = Some (PDict d) \/ (lookup data k = None /\ d = []).
Definition reads_method (o : Oracle) (custom : bool) (d : pydict) (c : MethodConfig) : Prop :=
  only d ["kind"; "id"; "device"; "params"; "model"] /\ (lookup d "kind" = Some (PStr (mc_kind c)) /\ In (mc_kind c) ["inductive"; "transductive"]) /\ text_at d "id" (mc_id c) /\
  (exists dv, section d "device" dv /\ reads_device o dv (mc_device c)) /\ mapping_at d "params" (mc_params c) /\ reads_model custom d (mc_model c).
Definition reads_eval (o : Oracle) (d : pydict) (c : EvalConfig) : Prop :=
  only d ["report_splits"; "metrics"; "split_for_model_selection"] /\
  (exists l, lookup d "report_splits" = Some (PList l) /\ l <> [] /\ ec_splits c = map (py_str o) l) /\
  (exists l, lookup d "metrics" = Some (PList l) /\ l <> [] /\ ec_metrics c = map (py_str o) l) /\
  text_or_none d "split_for_model_selection" (ec_select c).
(* every parameter of the search is one of method.params *)
Definition inside_params (o : Oracle) (space : pydict) : Prop := forall p x, declares o (PDict space) p x -> exists a r, p = "method" :: "params" :: a :: r.
Definition reads_search (o : Oracle) (metrics : list string) (d : pydict) (c : SearchConfig) : Prop :=
  only d ["enabled"; "kind"; "seed"; "n_trials"; "repeats"; "objective"; "space"] /\ lookup d "enabled" = Some (PBool (sc_enabled c)) /\
  (lookup d "kind" = Some (PStr (sc_kind c)) /\ In (sc_kind c) ["grid"; "random"]) /\ whole_or_none d "seed" (sc_seed c) /\ positive_or_none d "n_trials" (sc_trials c) /\
  (sc_kind c = "random" -> sc_seed c <> None /\ sc_trials c <> None) /\
  (0 < sc_repeats c /\ (whole_or_none d "repeats" (Some (sc_repeats c)) \/ (absent d "repeats" /\ sc_repeats c = 1))) /\
  (exists ob, section d "objective" ob /\ only ob ["split"; "metric"; "direction"; "aggregate"] /\ text_at ob "split" (sc_split c) /\ In (sc_split c) ["train"; "val"; "test"] /\
     text_at ob "metric" (sc_metric c) /\ In (sc_metric c) metrics /\ text_at ob "direction" (sc_direction c) /\ In (sc_direction c) ["maximize"; "minimize"] /\
     text_at ob "aggregate" (sc_aggregate c) /\ sc_aggregate c = "mean") /\
  lookup d "space" = Some (PDict (sc_space c)) /\ valid_space o (PDict (sc_space c)) /\ lookup (sc_space c) "dist" = None /\ inside_params o (sc_space c).
(* an optional section *)
Definition maybe {A} (data : pydict) (k : string) (reads : pydict -> A -> Prop) (x : option A) : Prop :=
  match x with None => lookup data k = None | Some a => exists d, lookup data k = Some (PDict d) /\ reads d a end.
Definition required {A} (data : pydict) (k : string) (reads : pydict -> A -> Prop) (a : A) : Prop := exists d, lookup data k = Some (PDict d) /\ reads d a.
(* limits may also be null, which sets none *)
Definition limits_at (data : pydict) (x : option LimitsConfig) : Prop :=
  match x with
  | None => lookup data "limits" = None
  | Some l => exists d, (lookup data "limits" = Some (PDict d) \/ (lookup data "limits" = Some PNone /\ d = [])) /\ reads_limits d l
  end.
(* the whole configuration *)
Definition reads (o : Oracle) (metrics : list string) (data : pydict) (c : ExperimentConfig) : Prop :=
  only data ["run"; "limits"; "dataset"; "sampling"; "preprocess"; "views"; "graph"; "augmentation"; "method"; "evaluation"; "search"] /\
  required data "run" (reads_run o) (xc_run c) /\ limits_at data (xc_limits c) /\ required data "dataset" reads_dataset (xc_dataset c) /\ required data "sampling" reads_plan (xc_sampling c) /\
  required data "preprocess" reads_preprocess (xc_preprocess c) /\ maybe data "views" reads_plan (xc_views c) /\ maybe data "graph" reads_graph (xc_graph c) /\ maybe data "augmentation" (reads_aug o) (xc_aug c) /\
  required data "method" (reads_method o (rn_custom (xc_run c))) (xc_method c) /\ required data "evaluation" (reads_eval o) (xc_eval c) /\ maybe data "search" (reads_search o metrics) (xc_search c).

(* ----- starting a run ----- *)
(* the configuration of a run of a sweep: its own name, seed and directory, the seed in every section that has one *)
Definition seeded (seed : Z) (c : option PlanConfig) : option PlanConfig := option_map (fun p => {| pl_seed := Some seed; pl_plan := pl_plan p |}) c.
Definition swept (name root : string) (seed : Z) (c : ExperimentConfig) : ExperimentConfig :=
  {| xc_run := {| rn_name := name; rn_seed := seed; rn_output := root; rn_seeds := None; rn_fail_fast := rn_fail_fast (xc_run c); rn_log := rn_log (xc_run c); rn_bench := rn_bench (xc_run c); rn_custom := rn_custom (xc_run c) |};
     xc_limits := xc_limits c; xc_dataset := xc_dataset c; xc_sampling := {| pl_seed := Some seed; pl_plan := pl_plan (xc_sampling c) |};
     xc_preprocess := {| pc_seed := Some seed; pc_fit_on := pc_fit_on (xc_preprocess c); pc_cache := pc_cache (xc_preprocess c); pc_plan := pc_plan (xc_preprocess c); pc_cache_dir := pc_cache_dir (xc_preprocess c) |};
     xc_method := xc_method c; xc_eval := xc_eval c;
     xc_graph := option_map (fun g => {| gc_enabled := gc_enabled g; gc_seed := Some seed; gc_cache := gc_cache g; gc_spec := gc_spec g; gc_cache_dir := gc_cache_dir g |}) (xc_graph c);
     xc_views := seeded seed (xc_views c);
     xc_aug := option_map (fun a => {| ac_enabled := ac_enabled a; ac_seed := Some seed; ac_mode := ac_mode a; ac_weak := ac_weak a; ac_strong := ac_strong a; ac_modality := ac_modality a |}) (xc_aug c);
     xc_search := option_map (fun s => {| sc_enabled := sc_enabled s; sc_kind := sc_kind s; sc_seed := Some seed; sc_trials := sc_trials s; sc_repeats := sc_repeats s; sc_split := sc_split s; sc_metric := sc_metric s;
       sc_direction := sc_direction s; sc_aggregate := sc_aggregate s; sc_space := sc_space s |}) (xc_search c) |}.
(* the name a step is written under: id, or step_id where there is no id; null, "" and the like count as none *)
Definition says_at (o : Oracle) (d : pydict) (k s : string) : Prop := exists v, lookup d k = Some v /\ py_bool v = true /\ s = py_str o v.
Definition named (o : Oracle) (d : pydict) (i : string) : Prop := i <> "" /\ (says_at o d "id" i \/ ((forall s, ~ says_at o d "id" s) /\ says_at o d "step_id" i)).
Definition steps_of (o : Oracle) (plan : pydict) (ids : list string) : Prop :=
  (lookup plan "steps" = None /\ ids = []) \/ (exists l, lookup plan "steps" = Some (PList l) /\ Forall2 (fun v i => exists d, v = PDict d /\ named o d i) l ids).
Definition steps_of_view (o : Oracle) (v : pyval) (ids : list string) : Prop :=
  (exists d p, v = PDict d /\ lookup d "preprocess" = Some (PDict p) /\ steps_of o p ids) \/ ((forall d p, v = PDict d -> lookup d "preprocess" <> Some (PDict p)) /\ ids = []).
Definition steps_of_views (o : Oracle) (views : option PlanConfig) (ids : list string) : Prop :=
  (exists c l parts, views = Some c /\ lookup (pl_plan c) "views" = Some (PList l) /\ Forall2 (steps_of_view o) l parts /\ ids = concat parts) \/
  ((forall c l, views = Some c -> lookup (pl_plan c) "views" <> Some (PList l)) /\ ids = []).
(* nothing is left to be chosen by the program *)
Definition nowhere_auto (raw : pyval) : Prop := ~ exists p k s, value_at raw (p ++ [K k]) = Some (PStr s) /\ auto_text s /\ auto_setting k.
(* benchmark mode *)
Definition contract (o : Oracle) (has_backend : string -> string -> result bool) (c : ExperimentConfig) (raw : pyval) : Prop :=
  dc_download (xc_dataset c) = false /\ dc_cache (xc_dataset c) <> None /\ nowhere_auto raw /\ dv_device (mc_device (xc_method c)) <> "auto" /\
  (exists s, ec_select (xc_eval c) = Some s /\ In s (ec_splits (xc_eval c)) /\ (forall q, xc_search c = Some q -> sc_enabled q = true -> sc_split q = s)) /\
  (exists b, has_backend (mc_kind (xc_method c)) (mc_id (xc_method c)) = Ok b /\
     (b = true -> exists v, lookup (mc_params (xc_method c)) "backend" = Some v /\ v <> PNone /\ lower_text (py_str o v) <> "auto")).
(* every mode, once the dataset is there *)
Definition ready (metrics : list string) (step_info : string -> result (bool * option string)) (extra_ok : string -> result unit) (method_extra : string -> string -> result (option string))
  (c : ExperimentConfig) (ids : list string) (dataset_extra : option string) (has_graph : bool) : Prop :=
  let here x := forall e : string, x = Some e -> extra_ok e = Ok tt in
  here dataset_extra /\ (forall i, In i ids -> exists b x, step_info i = Ok (b, x) /\ here x /\ (b = true -> pc_fit_on (xc_preprocess c) <> None)) /\
  (exists x, method_extra (mc_kind (xc_method c)) (mc_id (xc_method c)) = Ok x /\ here x) /\
  (mc_kind (xc_method c) = "inductive" -> mc_id (xc_method c) = "co_training" -> xc_views c <> None) /\
  (mc_kind (xc_method c) = "transductive" -> has_graph = true \/ exists g, xc_graph c = Some g /\ gc_enabled g = true) /\
  (forall a, xc_aug c = Some a -> ac_enabled a = true -> ac_mode a = "fixed" /\ ac_weak a <> [] /\ ac_strong a <> []) /\
  (forall m, In m (ec_metrics (xc_eval c)) -> In m metrics) /\ (forall s, In s (ec_splits (xc_eval c)) -> In s ["train"; "val"; "test"]).
