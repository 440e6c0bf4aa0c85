(* Model of the reading of preprocessing plans (src/modssc/preprocess/plan.py and bench/orchestrators/preprocess.py) and of plans of views
   (bench/orchestrators/views.py).  YAML text is not modelled: plans are the values it stands for.  meta of views is only checked. *)
From Coq Require Import String Ascii.
From Verif Require Import Prelude FloatModel PreprocModel ViewsModel PyValue.
Local Open Scope string_scope.
Local Open Scope Z_scope.
Local Open Scope list_scope.
Local Notation length := List.length.

(* PreprocessPlan (plan.py lines 25-33) *)
Record pplan := { pl_steps : list (config pydict); pl_key : string }.
(* PreprocessPlan.to_dict (plan.py lines 35-48) *)
Definition step_dict (c : config pydict) : pyval :=
  PDict [("id", PStr (c_id c)); ("params", PDict (c_params c)); ("modalities", PList (map PStr (c_modalities c)));
         ("requires_fields", PList (map PStr (c_requires c))); ("enabled", PBool (c_enabled c))].
Definition to_dict (p : pplan) : pydict := [("output_key", PStr (pl_key p)); ("steps", PList (map step_dict (pl_steps p)))].

Section Read.
Variable o : Oracle.
(* a or b *)
Definition or_else (a b : pyval) : pyval := if py_bool a then a else b.
(* iteration over a value: a text gives its letters, a dictionary its keys *)
Definition iterate (v : pyval) : result (list pyval) :=
  match v with
  | PList l => Ok l
  | PStr s => Ok (map (fun a => PStr (String a "")) (list_ascii_of_string s))
  | PDict d => Ok (map (fun e => PStr (fst e)) d)
  | _ => Err TypeError
  end.
(* tuple(str(m) for m in (item.get(key) or ())) (plan.py lines 74-75; preprocess.py lines 64-65) *)
Definition texts (v : pyval) : result (list string) := if py_bool v then do l <- iterate v; Ok (map (py_str o) l) else Ok [].
(* the parameters, lists of texts and the switch of a step (plan.py lines 70-85; preprocess.py lines 61-75) *)
Definition finish (id : string) (d : pydict) : result (config pydict) :=
  do params <- match or_else (get_or d "params" (PDict [])) (PDict []) with PDict p => Ok p | _ => Err ValueError end;
  do ms <- texts (get_or d "modalities" PNone);
  do rf <- texts (get_or d "requires_fields" PNone);
  Ok {| c_id := id; c_params := params; c_modalities := ms; c_requires := rf; c_enabled := py_bool (get_or d "enabled" (PBool true)) |}.

(* one step of load_plan (plan.py lines 64-85) *)
Definition load_step (v : pyval) : result (config pydict) :=
  match v with
  | PDict d =>
    let id := py_str o (or_else (get_or d "id" PNone) (get_or d "step_id" PNone)) in
    if String.eqb id "" then Err ValueError else finish id d
  | _ => Err ValueError
  end.
Fixpoint each (f : pyval -> result (config pydict)) (l : list pyval) : result (list (config pydict)) :=
  match l with [] => Ok [] | v :: r => do c <- f v; do cs <- each f r; Ok (c :: cs) end.
(* load_plan after yaml.safe_load (plan.py lines 54-87); texts are sequences *)
Definition load_plan (v : pyval) : result pplan :=
  match v with
  | PDict d =>
    let key := py_str o (get_or d "output_key" (PStr "features.X")) in
    do l <- match get_or d "steps" (PList []) with PList l => Ok l | PStr s => iterate (PStr s) | _ => Err ValueError end;
    do steps <- each load_step l;
    Ok {| pl_steps := steps; pl_key := key |}
  | _ => Err ValueError
  end.

(* _check_unknown_keys (preprocess.py lines 19-22; views.py lines 20-23) *)
Definition check_unknown_keys (d : pydict) (allowed : list string) : result unit := if forallb (fun k => memS k allowed) (keys d) then Ok tt else Err ValueError.
Definition step_keys := ["id"; "step_id"; "params"; "modalities"; "requires_fields"; "enabled"].
(* one step of _plan_from_dict (preprocess.py lines 46-75) *)
Definition bench_step (v : pyval) : result (config pydict) :=
  match v with
  | PDict d =>
    do _ <- check_unknown_keys d step_keys;
    do _ <- match lookup d "id", lookup d "step_id" with
            | Some a, Some b => if String.eqb (py_str o a) (py_str o b) then Ok tt else Err ValueError
            | _, _ => Ok tt
            end;
    let id := py_str o (or_else (or_else (get_or d "id" PNone) (get_or d "step_id" PNone)) (PStr "")) in
    if String.eqb id "" then Err ValueError else finish id d
  | _ => Err ValueError
  end.
(* _plan_from_dict (preprocess.py lines 35-77) *)
Definition bench_plan (v : pyval) : result pplan :=
  match v with
  | PDict d =>
    do _ <- check_unknown_keys d ["output_key"; "steps"];
    let key := py_str o (get_or d "output_key" (PStr "features.X")) in
    do l <- match get_or d "steps" (PList []) with PList l => Ok l | _ => Err ValueError end;
    do steps <- each bench_step l;
    Ok {| pl_steps := steps; pl_key := key |}
  | _ => Err ValueError
  end.

(* the mode of a selection of columns *)
Definition mode_of (s : string) : mode :=
  if String.eqb s "all" then All else if String.eqb s "indices" then Indices else if String.eqb s "random" then Random else if String.eqb s "complement" then Complement else Other.
Definition column_keys := ["mode"; "indices"; "fraction"; "complement_of"; "seed_offset"].
(* _column_spec_from_dict (views.py lines 26-40); half: the double 0.5 *)
Definition half : f64 := SpecFloat.S754_finite false 4503599627370496 (-53).
Definition column_spec (v : pyval) : result columns_spec :=
  match v with
  | PDict d =>
    do _ <- check_unknown_keys d column_keys;
    let m := mode_of (py_str o (get_or d "mode" (PStr "all"))) in
    let iv := get_or d "indices" (PList []) in
    do l <- (if py_bool iv then iterate iv else Ok []);
    do indices <- py_ints o l;
    do f <- py_float o (get_or d "fraction" (PFloat half));
    let c := get_or d "complement_of" PNone in
    do off <- py_int o (get_or d "seed_offset" (PInt 0));
    Ok {| cs_mode := m; cs_indices := indices; cs_fraction := f; cs_complement_of := if py_bool c then Some (py_str o c) else None; cs_seed_offset := off |}
  | _ => Err ValueError
  end.
(* _view_spec_from_dict (views.py lines 43-70) *)
Definition bench_view (v : pyval) : result (view_spec pplan) :=
  match v with
  | PDict d =>
    do _ <- check_unknown_keys d ["name"; "preprocess"; "columns"; "meta"];
    let name := py_str o (get_or d "name" (PStr "")) in
    if String.eqb name "" then Err ValueError else
    do pre <- match get_or d "preprocess" PNone with PNone => Ok None | p => do q <- bench_plan p; Ok (Some q) end;
    do cols <- match get_or d "columns" PNone with PNone => Ok None | c => do s <- column_spec c; Ok (Some s) end;
    do _ <- match get_or d "meta" PNone with PNone => Ok tt | PDict _ => Ok tt | _ => Err ValueError end;
    Ok {| v_name := name; v_preprocess := pre; v_columns := cols |}
  | _ => Err ValueError
  end.
Fixpoint bench_views (l : list pyval) : result (list (view_spec pplan)) := match l with [] => Ok [] | v :: r => do s <- bench_view v; do ss <- bench_views r; Ok (s :: ss) end.
(* _plan_from_dict of views (views.py lines 73-84) *)
Definition views_plan (v : pyval) : result (list (view_spec pplan)) :=
  match v with
  | PDict d =>
    do _ <- check_unknown_keys d ["views"];
    do l <- match get_or d "views" (PList []) with PList l => Ok l | _ => Err ValueError end;
    do vs <- bench_views l;
    do _ <- validate_plan vs;
    Ok vs
  | _ => Err ValueError
  end.
End Read.
