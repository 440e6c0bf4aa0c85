(* Model of bench/limits.py (resource limits applied to an experiment configuration) and of
   bench/seed_sweep.py (one configuration per seed).

   A configuration is the nested dictionary read from YAML (PDict with string keys, in order).  The code
   mutates it in place; here each function returns the new dictionary.  utils/io.py:87-112 rebuilds every
   mapping it reads, so no two places of the configuration share one object.  The text of a change message
   carries, beside it, the place it is about (not in the code: the code has only the text). *)
From Coq Require Import String.
From Verif Require Import Prelude FloatModel PyValue DecString HpoModel.
Local Open Scope string_scope.
Local Open Scope Z_scope.
Local Open Scope list_scope.

(* a place in a nested value: keys of mappings and positions in lists *)
Inductive seg := K (k : string) | I (i : nat).
Definition place := list seg.
Definition change := (place * string)%type.

(* schema.py:130-137 LimitsConfig *)
Record LimitsConfig := {
  lc_profile : option string;
  lc_preprocess_batch : option Z; lc_method_batch : option Z; lc_method_sup_batch : option Z;
  lc_graph_chunk : option Z; lc_train_samples : option Z; lc_test_samples : option Z
}.
(* limits.py:9-17 ResolvedLimits *)
Record ResolvedLimits := {
  rl_profile : option string;
  rl_preprocess_batch : option Z; rl_method_batch : option Z; rl_method_sup_batch : option Z;
  rl_graph_chunk : option Z; rl_train_samples : option Z; rl_test_samples : option Z
}.

(* limits.py:20-33 _LIMIT_PRESETS: preprocess batch, method batch, method sup batch, graph chunk *)
Definition preset (profile : string) : option (Z * Z * Z * Z) :=
  if String.eqb profile "v100" then Some (32, 128, 64, 512)
  else if String.eqb profile "h100" then Some (64, 512, 256, 1024)
  else None.

Section Limits.
Variable o : Oracle.
Variable lower : string -> string.                  (* str.lower *)
Variable detected : option string.                  (* _detect_profile(): what the machine's GPU gives, 36-64 *)

(* x if x is not None else defaults.get(key) *)
Definition or_default (x : option Z) (d : option Z) : option Z := match x with Some _ => x | None => d end.

(* limits.py:67-120 resolve_limits *)
Definition resolve_limits (cfg : option LimitsConfig) (strict : bool) : result (option ResolvedLimits) :=
  match cfg with
  | None => Ok None
  | Some c =>
      let profile := match lc_profile c with
                     | Some p => if String.eqb p "" then None else Some (lower p) | None => None end in
      if strict && match profile with Some p => String.eqb p "auto" | None => false end then Err BenchError
      else
        let resolved := match profile with
                        | None => None
                        | Some p => if String.eqb p "" then None
                                    else Some (if String.eqb p "auto"
                                               then match detected with Some d => d | None => "v100" end else p)
                        end in
        let d := match resolved with Some p => preset p | None => None end in
        let r := {| rl_profile := resolved;
                    rl_preprocess_batch := or_default (lc_preprocess_batch c) (option_map (fun t => fst (fst (fst t))) d);
                    rl_method_batch := or_default (lc_method_batch c) (option_map (fun t => snd (fst (fst t))) d);
                    rl_method_sup_batch := or_default (lc_method_sup_batch c) (option_map (fun t => snd (fst t)) d);
                    rl_graph_chunk := or_default (lc_graph_chunk c) (option_map snd d);
                    rl_train_samples := lc_train_samples c; rl_test_samples := lc_test_samples c |} in
        match rl_preprocess_batch r, rl_method_batch r, rl_method_sup_batch r, rl_graph_chunk r,
              rl_train_samples r, rl_test_samples r with
        | None, None, None, None, None, None => Ok None
        | _, _, _, _, _, _ => Ok (Some r)
        end
  end.

(* limits.py:123-133 _coerce_int: int(value) also truncates a float and parses a string; what it refuses gives None *)
Definition coerce_int (v : pyval) : option Z :=
  match v with
  | PNone | PBool _ => None
  | _ => match py_int o v with Ok z => Some z | Err _ => None end
  end.

(* limits.py:136-164 _clamp_value and _clamp_key; path is the text of the message, at_ the place of the container *)
Definition clamp_key (container : pydict) (key : string) (limit : option Z) (path : string) (at_ : place)
    (set_if_missing : bool) : pydict * list change :=
  match limit with
  | None => (container, [])
  | Some lim =>
      match lookup container key with
      | None => if set_if_missing
                then (dset container key (PInt lim), [(at_ ++ [K key], (path ++ "." ++ key ++ ": set to " ++ dec lim)%string)])
                else (container, [])
      | Some old =>
          match coerce_int old with
          | None => (container, [])
          | Some current =>
              let updated := Z.min current lim in
              if updated =? current then (container, [])
              else (dset container key (PInt updated),
                    [(at_ ++ [K key], (path ++ "." ++ key ++ ": " ++ py_str o old ++ " -> " ++ dec updated)%string)])
          end
      end
  end.

(* a or b or str(idx) *)
Definition first_true (a b : pyval) (idx : nat) : string :=
  if py_bool a then py_str o a else if py_bool b then py_str o b else dec (Z.of_nat idx).

(* limits.py:167-193 _clamp_preprocess_steps, the loop *)
Fixpoint clamp_steps (steps : list pyval) (idx : nat) (limit : option Z) (path : string) (at_ : place)
    : list pyval * list change :=
  match steps with
  | [] => ([], [])
  | s :: r =>
      let '(s', c) :=
        match s with
        | PDict step =>
            match lookup step "params" with
            | Some (PDict params) =>
                let sid := first_true (get_or step "id" PNone) (get_or step "step_id" PNone) idx in
                let '(p', c) := clamp_key params "batch_size" limit
                                  (path ++ ".steps[" ++ sid ++ "].params")%string (at_ ++ [I idx; K "params"]) false in
                (PDict (dset step "params" (PDict p')), c)
            | _ => (s, [])
            end
        | _ => (s, [])
        end in
      let '(r', cs) := clamp_steps r (S idx) limit path at_ in
      (s' :: r', c ++ cs)
  end.
Definition clamp_preprocess_steps (plan : pydict) (limit : option Z) (path : string) (at_ : place) : pydict * list change :=
  match limit, lookup plan "steps" with
  | Some _, Some (PList steps) =>
      let '(s', c) := clamp_steps steps 0 limit path (at_ ++ [K "steps"]) in (dset plan "steps" (PList s'), c)
  | _, _ => (plan, [])
  end.

(* change one entry of a mapping when it is a mapping (raw.get(k), isinstance(..., dict)) *)
Definition on_dict (d : pydict) (k : string) (f : pydict -> pydict * list change) : pydict * list change :=
  match lookup d k with
  | Some (PDict c) => let '(c', ch) := f c in (dset d k (PDict c'), ch)
  | _ => (d, [])
  end.
(* two clamps of one mapping after each other *)
Definition then_ (f g : pydict -> pydict * list change) (d : pydict) : pydict * list change :=
  let '(d1, c1) := f d in let '(d2, c2) := g d1 in (d2, c1 ++ c2).

(* limits.py:213-231; 196-201 _ensure_dict *)
Definition limit_dataset (l : ResolvedLimits) (dataset : pydict) : pydict * list change :=
  let options := match lookup dataset "options" with Some (PDict x) => x | _ => [] end in
  let '(x, c) :=
    then_ (fun d => clamp_key d "max_train_samples" (rl_train_samples l) "dataset.options" [K "dataset"; K "options"] true)
          (fun d => clamp_key d "max_test_samples" (rl_test_samples l) "dataset.options" [K "dataset"; K "options"] true)
          options in
  (dset dataset "options" (PDict x), c).
(* limits.py:233-242 *)
Definition limit_preprocess (l : ResolvedLimits) (preprocess : pydict) : pydict * list change :=
  on_dict preprocess "plan" (fun plan =>
    clamp_preprocess_steps plan (rl_preprocess_batch l) "preprocess.plan" [K "preprocess"; K "plan"]).
(* limits.py:244-261 *)
Fixpoint limit_view_list (l : ResolvedLimits) (views : list pyval) (idx : nat) : list pyval * list change :=
  match views with
  | [] => ([], [])
  | v :: r =>
      let '(v', c) :=
        match v with
        | PDict view =>
            let name := first_true (get_or view "name" PNone) PNone idx in
            let '(d, c) := on_dict view "preprocess" (fun pre =>
              clamp_preprocess_steps pre (rl_preprocess_batch l) ("views.plan.views[" ++ name ++ "].preprocess")%string
                [K "views"; K "plan"; K "views"; I idx; K "preprocess"]) in
            (PDict d, c)
        | _ => (v, [])
        end in
      let '(r', cs) := limit_view_list l r (S idx) in
      (v' :: r', c ++ cs)
  end.
Definition limit_views (l : ResolvedLimits) (views : pydict) : pydict * list change :=
  on_dict views "plan" (fun plan =>
    match lookup plan "views" with
    | Some (PList vs) => let '(vs', c) := limit_view_list l vs 0 in (dset plan "views" (PList vs'), c)
    | _ => (plan, [])
    end).
(* limits.py:263-305 *)
Definition limit_method (l : ResolvedLimits) (method : pydict) : pydict * list change :=
  then_ (fun m => on_dict m "params"
           (then_ (fun p => clamp_key p "batch_size" (rl_method_batch l) "method.params" [K "method"; K "params"] false)
           (then_ (fun p => clamp_key p "sup_batch_size" (rl_method_sup_batch l) "method.params" [K "method"; K "params"] false)
                  (fun p => on_dict p "classifier_params" (fun c =>
                     clamp_key c "batch_size" (rl_method_batch l) "method.params.classifier_params"
                       [K "method"; K "params"; K "classifier_params"] false)))))
        (fun m => on_dict m "model" (fun model => on_dict model "classifier_params" (fun c =>
           clamp_key c "batch_size" (rl_method_batch l) "method.model.classifier_params"
             [K "method"; K "model"; K "classifier_params"] false)))
        method.
(* limits.py:307-318 *)
Definition limit_graph (l : ResolvedLimits) (graph : pydict) : pydict * list change :=
  on_dict graph "spec" (fun spec =>
    clamp_key spec "chunk_size" (rl_graph_chunk l) "graph.spec" [K "graph"; K "spec"] true).

(* limits.py:204-320 apply_limits *)
Definition apply_limits (raw : pydict) (limits : option LimitsConfig) (strict : bool)
    : result (pydict * list change * option ResolvedLimits) :=
  do resolved <- resolve_limits limits strict;
  match resolved with
  | None => Ok (raw, [], None)
  | Some l =>
      let '(raw', changes) :=
        then_ (fun d => on_dict d "dataset" (limit_dataset l))
        (then_ (fun d => on_dict d "preprocess" (limit_preprocess l))
        (then_ (fun d => on_dict d "views" (limit_views l))
        (then_ (fun d => on_dict d "method" (limit_method l))
               (fun d => on_dict d "graph" (limit_graph l))))) raw in
      Ok (raw', changes, Some l)
  end.
End Limits.

(* ------------------------------------------------------------------------------- seed_sweep.py *)
(* d.pop(k, None) *)
Definition dpop (d : pydict) (k : string) : pydict := filter (fun kv => negb (String.eqb (fst kv) k)) d.

(* seed_sweep.py:7 *)
Definition seeded_sections : list string := ["sampling"; "preprocess"; "views"; "graph"; "augmentation"; "search"]%string.

(* seed_sweep.py:10-13 *)
Definition sweep_run_name (base : string) (seed : Z) : string := (base ++ "-seed" ++ dec seed)%string.

(* seed_sweep.py:16-36; deepcopy makes the result independent of raw, which is never changed *)
Definition seed_section (seed : Z) (d : pydict) (section : string) : pydict :=
  match lookup d section with
  | Some (PDict b) => dset d section (PDict (dset b "seed" (PInt seed)))
  | _ => d
  end.
Definition apply_global_seed (raw : pydict) (seed : Z) (run_name : option string) : pydict :=
  let run := match lookup raw "run" with Some (PDict r) => r | _ => [] end in
  let run := dset (dpop run "seeds") "seed" (PInt seed) in
  let run := match run_name with Some n => dset run "name" (PStr n) | None => run end in
  fold_left (seed_section seed) seeded_sections (dset raw "run" (PDict run)).
