(* Model of bench/schema.py: ExperimentConfig.from_dict and _validate_search_space, and of the two preflights in bench/main.py.
   A configuration is the nested dictionary read from YAML, with string keys.  BenchConfigError is BenchError, its code and
   message are left out.  str.strip and str.lower are those of BenchIoModel.v (ASCII). *)
From Coq Require Import String Ascii.
From Verif Require Import Prelude FloatModel PyValue HpoModel LimitsModel BenchIoModel.
Local Open Scope string_scope.
Local Open Scope Z_scope.
Local Open Scope list_scope.

(* _as_mapping (schema.py lines 18-21) *)
Definition as_mapping (v : pyval) : result pydict := match v with PDict d => Ok d | _ => Err BenchError end.
(* _check_unknown (schema.py lines 24-27) *)
Definition check_unknown (d : pydict) (allowed : list string) : result unit := if forallb (fun k => memS k allowed) (keys d) then Ok tt else Err BenchError.
(* not val.strip() *)
Definition is_blank (s : string) : bool := match strip (list_ascii_of_string s) with [] => true | _ => false end.
(* _require_str (schema.py lines 30-34) *)
Definition require_str (d : pydict) (k : string) : result string :=
  match get_or d k PNone with PStr s => if is_blank s then Err BenchError else Ok s | _ => Err BenchError end.
(* _require_bool (schema.py lines 37-41) *)
Definition require_bool (d : pydict) (k : string) : result bool := match get_or d k PNone with PBool b => Ok b | _ => Err BenchError end.
(* _optional_str (schema.py lines 44-50) *)
Definition optional_str (d : pydict) (k : string) : result (option string) :=
  match get_or d k PNone with PNone => Ok None | PStr s => if is_blank s then Err BenchError else Ok (Some s) | _ => Err BenchError end.
(* int(val) of an int; bool is a subclass of int (schema.py lines 57-59 and 73-75) *)
Definition int_of (v : pyval) : option Z := match v with PInt z => Some z | PBool b => Some (if b then 1 else 0) | _ => None end.
(* _optional_int (schema.py lines 53-59) *)
Definition optional_int (d : pydict) (k : string) : result (option Z) :=
  match get_or d k PNone with PNone => Ok None | v => match int_of v with Some z => Ok (Some z) | None => Err BenchError end end.
(* the loop of _optional_seed_list (schema.py lines 70-80) *)
Fixpoint seed_items (seen : list Z) (l : list pyval) : result (list Z) :=
  match l with
  | [] => Ok []
  | v :: r =>
    match int_of v with
    | None => Err BenchError
    | Some z => if existsb (Z.eqb z) seen then Err BenchError else do zs <- seed_items (z :: seen) r; Ok (z :: zs)
    end
  end.
(* _optional_seed_list (schema.py lines 62-80) *)
Definition optional_seed_list (d : pydict) (k : string) : result (option (list Z)) :=
  match get_or d k PNone with
  | PNone => Ok None
  | PList [] => Err BenchError
  | PList l => do zs <- seed_items [] l; Ok (Some zs)
  | _ => Err BenchError
  end.
(* _optional_positive_int (schema.py lines 83-89) *)
Definition optional_positive_int (d : pydict) (k : string) : result (option Z) :=
  do o <- optional_int d k; match o with Some z => if z <=? 0 then Err BenchError else Ok (Some z) | None => Ok None end.
(* _optional_bool (schema.py lines 92-96) *)
Definition optional_bool (d : pydict) (k : string) (dflt : bool) : result bool := match get_or d k (PBool dflt) with PBool b => Ok b | _ => Err BenchError end.
(* _optional_mapping (schema.py lines 99-105) *)
Definition optional_mapping (d : pydict) (k : string) : result pydict :=
  match get_or d k (PDict []) with PNone => Ok [] | PDict m => Ok m | _ => Err BenchError end.
(* _optional_list (schema.py lines 108-114) *)
Definition optional_list (d : pydict) (k : string) : result (list pyval) :=
  match get_or d k (PList []) with PNone => Ok [] | PList l => Ok l | _ => Err BenchError end.

(* the dataclasses (schema.py lines 117-252) *)
Record RunConfig := { rn_name : string; rn_seed : Z; rn_output : string; rn_seeds : option (list Z); rn_fail_fast : bool; rn_log : option string; rn_bench : bool; rn_custom : bool }.
Record DatasetConfig := { dc_id : string; dc_options : pydict; dc_download : bool; dc_cache : option string }.
Record PlanConfig := { pl_seed : option Z; pl_plan : pydict }.
Record PreprocessConfig := { pc_seed : option Z; pc_fit_on : option string; pc_cache : bool; pc_plan : pydict; pc_cache_dir : option string }.
Record GraphConfig := { gc_enabled : bool; gc_seed : option Z; gc_cache : bool; gc_spec : pydict; gc_cache_dir : option string }.
Record AugConfig := { ac_enabled : bool; ac_seed : option Z; ac_mode : string; ac_weak : pydict; ac_strong : pydict; ac_modality : option string }.
Record DeviceConfig := { dv_device : string; dv_dtype : string; dv_resolved : option string }.
Inductive ModelConfig :=
| Factory (factory : string) (params : pydict)
| Classifier (id backend : string) (params : pydict) (ema : option bool).
Record MethodConfig := { mc_kind : string; mc_id : string; mc_device : DeviceConfig; mc_params : pydict; mc_model : option ModelConfig }.
Record EvalConfig := { ec_splits : list string; ec_metrics : list string; ec_select : option string }.
Record SearchConfig := { sc_enabled : bool; sc_kind : string; sc_seed : option Z; sc_trials : option Z; sc_repeats : Z; sc_split : string; sc_metric : string; sc_direction : string; sc_aggregate : string; sc_space : pydict }.
Record ExperimentConfig := { xc_run : RunConfig; xc_limits : option LimitsConfig; xc_dataset : DatasetConfig; xc_sampling : PlanConfig; xc_preprocess : PreprocessConfig; xc_method : MethodConfig; xc_eval : EvalConfig; xc_graph : option GraphConfig; xc_views : option PlanConfig; xc_aug : option AugConfig; xc_search : option SearchConfig }.

(* _check_leaf (schema.py lines 592-597) *)
Definition leaf_place (path : list string) : bool :=
  match path with a :: b :: _ :: _ => String.eqb a "method" && String.eqb b "params" | _ => false end.
(* _walk (schema.py lines 599-618); the keys are visited in sorted order in the code, which decides only which of the errors,
   all of one class, is raised *)
Fixpoint space_places (v : pyval) (path : list string) : bool :=
  match v with
  | PList l => match l with [] => false | _ => leaf_place path end
  | PDict d =>
    match d with
    | [] => false
    | _ =>
      if memS "dist" (keys d) then leaf_place path
      else (fix go (d : list (string * pyval)) : bool := match d with [] => true | (k, w) :: r => negb (String.eqb k "") && space_places w (path ++ [k]) && go r end) d
    end
  | _ => false
  end.
Definition lower_text (s : string) : string := string_of_list_ascii (map lower (list_ascii_of_string s)).

Section Parse.
Variable o : Oracle.
Variable sort : list string -> list string.     (* sorted() of Space.from_dict *)
Variable metrics : list string.                 (* list_metrics() *)

(* run (schema.py lines 275-306) *)
Definition parse_run (d : pydict) : result RunConfig :=
  do _ <- check_unknown d ["name"; "seed"; "seeds"; "output_dir"; "fail_fast"; "log_level"; "benchmark_mode"; "allow_custom_factories"];
  do bench <- optional_bool d "benchmark_mode" false;
  do fast <- optional_bool d "fail_fast" true;
  do _ <- (if bench && negb fast then Err BenchError else Ok tt);
  do name <- require_str d "name";
  do seed <- py_int o (get_or d "seed" (PInt 0));
  do seeds <- optional_seed_list d "seeds";
  do log <- optional_str d "log_level";
  do custom <- optional_bool d "allow_custom_factories" false;
  Ok {| rn_name := name; rn_seed := seed; rn_output := py_str o (get_or d "output_dir" (PStr "modssc_cache/output")); rn_seeds := seeds; rn_fail_fast := fast; rn_log := log; rn_bench := bench; rn_custom := custom |}.
(* limits (schema.py lines 308-350) *)
Definition parse_limits (data : pydict) : result (option LimitsConfig) :=
  match lookup data "limits" with
  | None => Ok None
  | Some v =>
    do d <- as_mapping (match v with PNone => PDict [] | _ => v end);
    do _ <- check_unknown d ["profile"; "max_preprocess_batch_size"; "max_method_batch_size"; "max_method_sup_batch_size"; "max_graph_chunk_size"; "max_train_samples"; "max_test_samples"];
    do profile <- optional_str d "profile";
    do profile <- match profile with
                  | None => Ok None
                  | Some p => if memS (lower_text p) ["auto"; "v100"; "h100"] then Ok (Some (lower_text p)) else Err BenchError
                  end;
    do a <- optional_positive_int d "max_preprocess_batch_size";
    do b <- optional_positive_int d "max_method_batch_size";
    do c <- optional_positive_int d "max_method_sup_batch_size";
    do e <- optional_positive_int d "max_graph_chunk_size";
    do f <- optional_positive_int d "max_train_samples";
    do g <- optional_positive_int d "max_test_samples";
    Ok (Some {| lc_profile := profile; lc_preprocess_batch := a; lc_method_batch := b; lc_method_sup_batch := c; lc_graph_chunk := e; lc_train_samples := f; lc_test_samples := g |})
  end.
(* dataset (schema.py lines 352-359) *)
Definition parse_dataset (d : pydict) : result DatasetConfig :=
  do _ <- check_unknown d ["id"; "options"; "download"; "cache_dir"];
  do id <- require_str d "id";
  do options <- optional_mapping d "options";
  do download <- optional_bool d "download" true;
  do cache <- optional_str d "cache_dir";
  Ok {| dc_id := id; dc_options := options; dc_download := download; dc_cache := cache |}.
(* if not plan: raise *)
Definition non_empty {A} (l : list A) : result unit := match l with [] => Err BenchError | _ => Ok tt end.
(* sampling and views (schema.py lines 361-366 and 383-390) *)
Definition parse_plan (d : pydict) : result PlanConfig :=
  do _ <- check_unknown d ["seed"; "plan"];
  do plan <- optional_mapping d "plan";
  do _ <- non_empty plan;
  do seed <- optional_int d "seed";
  Ok {| pl_seed := seed; pl_plan := plan |}.
(* preprocess (schema.py lines 368-381) *)
Definition parse_preprocess (d : pydict) : result PreprocessConfig :=
  do _ <- check_unknown d ["seed"; "fit_on"; "cache"; "plan"; "cache_dir"];
  do plan <- optional_mapping d "plan";
  do _ <- non_empty plan;
  do seed <- optional_int d "seed";
  do fit <- optional_str d "fit_on";
  do cache <- optional_bool d "cache" true;
  do dir <- optional_str d "cache_dir";
  Ok {| pc_seed := seed; pc_fit_on := fit; pc_cache := cache; pc_plan := plan; pc_cache_dir := dir |}.
(* graph (schema.py lines 392-402) *)
Definition parse_graph (d : pydict) : result GraphConfig :=
  do _ <- check_unknown d ["enabled"; "seed"; "cache"; "cache_dir"; "spec"];
  do enabled <- optional_bool d "enabled" false;
  do seed <- optional_int d "seed";
  do cache <- optional_bool d "cache" true;
  do dir <- optional_str d "cache_dir";
  do spec <- optional_mapping d "spec";
  Ok {| gc_enabled := enabled; gc_seed := seed; gc_cache := cache; gc_spec := spec; gc_cache_dir := dir |}.
(* augmentation (schema.py lines 404-417) *)
Definition parse_aug (d : pydict) : result AugConfig :=
  do _ <- check_unknown d ["enabled"; "seed"; "mode"; "weak"; "strong"; "modality"];
  do enabled <- optional_bool d "enabled" true;
  do seed <- optional_int d "seed";
  do weak <- optional_mapping d "weak";
  do strong <- optional_mapping d "strong";
  do modality <- optional_str d "modality";
  Ok {| ac_enabled := enabled; ac_seed := seed; ac_mode := py_str o (get_or d "mode" (PStr "fixed")); ac_weak := weak; ac_strong := strong; ac_modality := modality |}.
(* method.device (schema.py lines 424-430) *)
Definition parse_device (d : pydict) : result DeviceConfig :=
  do _ <- check_unknown d ["device"; "dtype"; "resolved_device"];
  do resolved <- optional_str d "resolved_device";
  Ok {| dv_device := py_str o (get_or d "device" (PStr "cpu")); dv_dtype := py_str o (get_or d "dtype" (PStr "float32")); dv_resolved := resolved |}.
(* method.model (schema.py lines 431-478) *)
Definition parse_model (custom : bool) (v : pyval) : result (option ModelConfig) :=
  match v with
  | PNone => Ok None
  | _ =>
    do d <- as_mapping v;
    let f := memS "factory" (keys d) in
    let c := memS "classifier_id" (keys d) in
    if f && c then Err BenchError
    else if negb f && negb c then Err BenchError
    else if f then
      if negb custom then Err BenchError
      else
        do _ <- check_unknown d ["factory"; "params"];
        do factory <- require_str d "factory";
        do params <- optional_mapping d "params";
        Ok (Some (Factory factory params))
    else
      do _ <- check_unknown d ["classifier_id"; "classifier_backend"; "classifier_params"; "ema"];
      do backend <- match get_or d "classifier_backend" (PStr "torch") with PStr s => if is_blank s then Err BenchError else Ok s | _ => Err BenchError end;
      do ema <- match get_or d "ema" PNone with PNone => Ok None | PBool b => Ok (Some b) | _ => Err BenchError end;
      do id <- require_str d "classifier_id";
      do params <- optional_mapping d "classifier_params";
      Ok (Some (Classifier id backend params ema))
  end.
(* method (schema.py lines 419-485) *)
Definition parse_method (custom : bool) (d : pydict) : result MethodConfig :=
  do _ <- check_unknown d ["kind"; "id"; "device"; "params"; "model"];
  do kind <- require_str d "kind";
  do _ <- (if memS kind ["inductive"; "transductive"] then Ok tt else Err BenchError);
  do device <- as_mapping (get_or d "device" (PDict []));
  do device <- parse_device device;
  do model <- parse_model custom (get_or d "model" PNone);
  do id <- require_str d "id";
  do params <- optional_mapping d "params";
  Ok {| mc_kind := kind; mc_id := id; mc_device := device; mc_params := params; mc_model := model |}.
(* evaluation (schema.py lines 487-501) *)
Definition parse_eval (d : pydict) : result EvalConfig :=
  do _ <- check_unknown d ["report_splits"; "metrics"; "split_for_model_selection"];
  do splits <- optional_list d "report_splits";
  do ms <- optional_list d "metrics";
  do _ <- non_empty splits;
  do _ <- non_empty ms;
  do select <- optional_str d "split_for_model_selection";
  Ok {| ec_splits := map (py_str o) splits; ec_metrics := map (py_str o) ms; ec_select := select |}.
(* Space.from_dict with HpoError turned into BenchConfigError (schema.py lines 556-559) *)
Definition check_space (space : pydict) : result unit :=
  match HpoModel.from_dict sort o space with Ok _ => Ok tt | Err HpoError => Err BenchError | Err e => Err e end.
(* search (schema.py lines 503-574) *)
Definition parse_search (d : pydict) : result SearchConfig :=
  do _ <- check_unknown d ["enabled"; "kind"; "seed"; "n_trials"; "repeats"; "objective"; "space"];
  do enabled <- require_bool d "enabled";
  do kind <- require_str d "kind";
  do _ <- (if memS kind ["grid"; "random"] then Ok tt else Err BenchError);
  do seed <- optional_int d "seed";
  do trials <- optional_int d "n_trials";
  do _ <- match trials with Some n => if n <=? 0 then Err BenchError else Ok tt | None => Ok tt end;
  do _ <- (if String.eqb kind "random" then match seed with None => Err BenchError | Some _ => Ok tt end else Ok tt);
  do _ <- (if String.eqb kind "random" then match trials with None => Err BenchError | Some _ => Ok tt end else Ok tt);
  do rep <- optional_int d "repeats";
  let repeats := match rep with Some n => n | None => 1 end in
  do _ <- (if repeats <=? 0 then Err BenchError else Ok tt);
  do ob <- as_mapping (get_or d "objective" (PDict []));
  do _ <- check_unknown ob ["split"; "metric"; "direction"; "aggregate"];
  do split <- require_str ob "split";
  do metric <- require_str ob "metric";
  do direction <- require_str ob "direction";
  do aggregate <- require_str ob "aggregate";
  do _ <- (if memS split ["train"; "val"; "test"] then Ok tt else Err BenchError);
  do _ <- (if memS metric metrics then Ok tt else Err BenchError);
  do _ <- (if memS direction ["maximize"; "minimize"] then Ok tt else Err BenchError);
  do _ <- (if String.eqb aggregate "mean" then Ok tt else Err BenchError);
  do space <- optional_mapping d "space";
  do _ <- non_empty space;
  do _ <- (if space_places (PDict space) [] then Ok tt else Err BenchError);
  do _ <- check_space space;
  Ok {| sc_enabled := enabled; sc_kind := kind; sc_seed := seed; sc_trials := trials; sc_repeats := repeats; sc_split := split; sc_metric := metric; sc_direction := direction; sc_aggregate := aggregate; sc_space := space |}.
(* a section that is optional: "views" in data (schema.py lines 384-385, 393-394, 405-406 and 504-505) *)
Definition parse_optional {A} (f : pydict -> result A) (data : pydict) (k : string) : result (option A) :=
  match lookup data k with None => Ok None | Some v => do d <- as_mapping v; do x <- f d; Ok (Some x) end.
(* a section that is not: data.get(k, {}) (schema.py lines 275, 352, 361, 368, 419 and 487) *)
Definition parse_section {A} (f : pydict -> result A) (data : pydict) (k : string) : result A :=
  do d <- as_mapping (get_or data k (PDict [])); f d.
(* ExperimentConfig.from_dict (schema.py lines 254-588) *)
Definition parse (raw : pyval) : result ExperimentConfig :=
  do data <- as_mapping raw;
  do _ <- check_unknown data ["run"; "limits"; "dataset"; "sampling"; "preprocess"; "views"; "graph"; "augmentation"; "method"; "evaluation"; "search"];
  do run <- parse_section parse_run data "run";
  do limits <- parse_limits data;
  do dataset <- parse_section parse_dataset data "dataset";
  do sampling <- parse_section parse_plan data "sampling";
  do preprocess <- parse_section parse_preprocess data "preprocess";
  do views <- parse_optional parse_plan data "views";
  do graph <- parse_optional parse_graph data "graph";
  do aug <- parse_optional parse_aug data "augmentation";
  do method <- parse_section (parse_method (rn_custom run)) data "method";
  do ev <- parse_section parse_eval data "evaluation";
  do search <- parse_optional parse_search data "search";
  Ok {| xc_run := run; xc_limits := limits; xc_dataset := dataset; xc_sampling := sampling; xc_preprocess := preprocess; xc_method := method; xc_eval := ev; xc_graph := graph; xc_views := views; xc_aug := aug; xc_search := search |}.

(* ----- the contract of benchmark mode ----- *)
Variable has_backend : string -> string -> result bool.     (* _method_has_backend_param (main.py lines 369-384) *)
Variable step_info : string -> result (bool * option string).     (* step_info(id): whether its kind is "fittable", and its required_extra *)
Definition is_some {A} (x : option A) : bool := match x with Some _ => true | None => false end.
Definition opt_eqb (x y : option string) : bool := match x, y with Some a, Some b => String.eqb a b | None, None => true | _, _ => false end.
(* _requires_fit_indices (main.py lines 266-271) *)
Fixpoint requires_fit (ids : list string) : result bool :=
  match ids with [] => Ok false | i :: r => do ' (b, _) <- step_info i; if b then Ok true else requires_fit r end.
Definition refuse (b : bool) : result unit := if b then Err BenchError else Ok tt.
(* _benchmark_contract_preflight (main.py lines 387-482); cfg.dataset.cache_dir is never empty when it is set *)
Definition bench_preflight (cfg : ExperimentConfig) (raw : pyval) (steps view_steps : list string) : result unit :=
  if negb (rn_bench (xc_run cfg)) then Ok tt
  else
    do _ <- refuse (dc_download (xc_dataset cfg));
    do _ <- refuse (negb (is_some (dc_cache (xc_dataset cfg))));
    do _ <- refuse (String.eqb (dv_device (mc_device (xc_method cfg))) "auto");
    do _ <- refuse match xc_limits cfg with Some l => match lc_profile l with Some p => String.eqb p "auto" | None => false end | None => false end;
    do _ <- refuse match xc_graph cfg with
                   | Some g => gc_enabled g && match lookup (gc_spec g) "backend" with Some (PStr s) => String.eqb (lower_text s) "auto" | _ => false end
                   | None => false
                   end;
    do _ <- refuse match mc_model (xc_method cfg) with Some (Classifier _ b _ _) => String.eqb b "auto" | _ => false end;
    do _ <- match ec_select (xc_eval cfg) with None => Err BenchError | Some s => refuse (negb (memS s (ec_splits (xc_eval cfg)))) end;
    do _ <- refuse match xc_search cfg with Some s => sc_enabled s && negb (opt_eqb (Some (sc_split s)) (ec_select (xc_eval cfg))) | None => false end;
    do hb <- has_backend (mc_kind (xc_method cfg)) (mc_id (xc_method cfg));
    do _ <- (if hb then match get_or (mc_params (xc_method cfg)) "backend" PNone with PNone => Err BenchError | v => refuse (String.eqb (lower_text (py_str o v)) "auto") end else Ok tt);
    do _ <- refuse_auto raw;
    do f <- requires_fit steps;
    do _ <- refuse (f && negb (is_some (pc_fit_on (xc_preprocess cfg))));
    do f <- requires_fit view_steps;
    refuse (f && negb (is_some (pc_fit_on (xc_preprocess cfg)))).

(* str(item.get("id") or item.get("step_id") or "") (main.py line 242) *)
Definition step_name (d : pydict) : string :=
  let a := get_or d "id" PNone in
  if py_bool a then py_str o a else let b := get_or d "step_id" PNone in if py_bool b then py_str o b else "".
(* the loop of _preprocess_step_ids (main.py lines 239-249) *)
Fixpoint step_names (l : list pyval) : result (list string) :=
  match l with
  | [] => Ok []
  | PDict d :: r => if String.eqb (step_name d) "" then Err BenchError else do ids <- step_names r; Ok (step_name d :: ids)
  | _ :: _ => Err BenchError
  end.
(* _preprocess_step_ids (main.py lines 234-249) *)
Definition step_ids (plan : pydict) : result (list string) := match get_or plan "steps" (PList []) with PList l => step_names l | _ => Err BenchError end.
(* the loop of _views_preprocess_step_ids (main.py lines 257-263) *)
Fixpoint view_steps (l : list pyval) : result (list string) :=
  match l with
  | [] => Ok []
  | v :: r =>
    do ids <- match v with PDict d => match get_or d "preprocess" PNone with PDict p => step_ids p | _ => Ok [] end | _ => Ok [] end;
    do more <- view_steps r; Ok (ids ++ more)
  end.
(* _views_preprocess_step_ids (main.py lines 252-263) *)
Definition views_step_ids (plan : pydict) : result (list string) := match get_or plan "views" (PList []) with PList l => view_steps l | _ => Ok [] end.

(* the optional dependencies: _check_extra, and what the registries say is needed *)
Variable extra_ok : string -> result unit.
Variable method_extra : string -> string -> result (option string).
(* the extra is there, if there is one (main.py lines 179-181, 185-187 and 194-195); required_extra is never empty *)
Definition need (x : option string) : result unit := match x with Some e => extra_ok e | None => Ok tt end.
Fixpoint need_steps (ids : list string) : result unit := match ids with [] => Ok tt | i :: r => do ' (_, x) <- step_info i; do _ <- need x; need_steps r end.
(* _preflight (main.py lines 172-231); the description of the method it returns is left out *)
Definition preflight (cfg : ExperimentConfig) (dataset_extra : option string) (steps : list string) (has_graph : bool) : result unit :=
  do _ <- need dataset_extra;
  do _ <- need_steps steps;
  do x <- method_extra (mc_kind (xc_method cfg)) (mc_id (xc_method cfg));
  do _ <- need x;
  do _ <- refuse (String.eqb (mc_kind (xc_method cfg)) "inductive" && String.eqb (mc_id (xc_method cfg)) "co_training" && negb (is_some (xc_views cfg)));
  do _ <- refuse (String.eqb (mc_kind (xc_method cfg)) "transductive" && negb has_graph && negb match xc_graph cfg with Some g => gc_enabled g | None => false end);
  do _ <- match xc_aug cfg with
          | Some a => if ac_enabled a then do _ <- refuse (negb (String.eqb (ac_mode a) "fixed")); do _ <- non_empty (ac_weak a); non_empty (ac_strong a) else Ok tt
          | None => Ok tt
          end;
  do _ <- refuse (negb (forallb (fun m => memS m metrics) (ec_metrics (xc_eval cfg))));
  refuse (negb (forallb (fun m => memS m ["train"; "val"; "test"]) (ec_splits (xc_eval cfg)))).
(* the start of a run (main.py lines 622-657): the steps of the plans, the contract of benchmark mode, the dataset, then the other
   checks; the dataset is the extra it needs and whether it brings a graph *)
Variable load : DatasetConfig -> result (option string * bool).
Definition start (cfg : ExperimentConfig) (raw : pyval) : result (list string) :=
  do steps <- step_ids (pc_plan (xc_preprocess cfg));
  do vsteps <- match xc_views cfg with Some v => views_step_ids (pl_plan v) | None => Ok [] end;
  do _ <- bench_preflight cfg raw steps vsteps;
  do ' (extra, has_graph) <- load (xc_dataset cfg);
  do f <- requires_fit steps;
  do _ <- refuse (f && negb (is_some (pc_fit_on (xc_preprocess cfg))));
  do f <- requires_fit vsteps;
  do _ <- refuse (f && negb (is_some (pc_fit_on (xc_preprocess cfg))));
  do _ <- preflight cfg extra (steps ++ vsteps) has_graph;
  Ok (steps ++ vsteps).
End Parse.

(* the configuration of one run of a sweep (main.py lines 1053-1059) *)
Definition sweep_raw (raw : pydict) (base : string) (seed : Z) (root : string) : pydict :=
  let d := apply_global_seed raw seed (Some (sweep_run_name base seed)) in
  let run := match lookup d "run" with Some (PDict r) => r | _ => [] end in
  dset d "run" (PDict (dset run "output_dir" (PStr root))).
