(* Model of the registration of the commands and of doctor (src/modssc/cli/app.py).
   A brick is a module with its name; what an import does is a parameter.  Texts are ASCII.  Not modelled: help texts, the version and log options, the JSON text of doctor. *)
From Coq Require Import String Ascii.
From Verif Require Import Prelude.
From Verif Require OmlModel.
Local Open Scope string_scope.
Local Open Scope list_scope.
Local Notation length := List.length.

(* an import gives a module, with app or not; an ImportError with its name and text; another error *)
Inductive outcome := Module (app : bool) | ImportFails (name : option string) (msg : string) | Other (msg : string).
Record status := { s_module : string; s_name : string; s_available : bool; s_error : option string; s_missing : option string; s_hint : option string }.
(* _BRICK_EXTRA_HINTS and _MISSING_MODULE_HINTS (app.py lines 29-43) *)
Definition brick_hints : list (string * string) := [("datasets", "datasets"); ("graph", "graph"); ("inductive", "inductive-torch or inductive-tf"); ("supervised", "sklearn or supervised-torch")].
Definition module_hints : list (string * string) := [("datasets", "datasets"); ("sklearn", "sklearn"); ("torch", "graph"); ("torch_geometric", "graph"); ("tensorflow", "tfds"); ("tensorflow_datasets", "tfds")].
Fixpoint get (d : list (string * string)) (k : string) : option string := match d with [] => None | (k', v) :: r => if String.eqb k' k then Some v else get r k end.
(* _extra_hint_for (app.py lines 72-75) *)
Definition hint_for (name : string) (missing : option string) : option string :=
  match (match missing with Some m => get module_hints m | None => None end) with Some h => Some h | None => get brick_hints name end.
(* text.strip of quotes *)
Definition is_quote (c : ascii) : bool := Ascii.eqb c "'" || Ascii.eqb c """".
Fixpoint drop_quotes (t : list ascii) : list ascii := match t with c :: r => if is_quote c then drop_quotes r else t | [] => [] end.
Definition strip_quotes (t : list ascii) : list ascii := rev (drop_quotes (rev (drop_quotes t))).
(* the text after the first "No module named" *)
Definition marker : string := "No module named".
Fixpoint after_marker (t : string) : option string :=
  if String.prefix marker t then Some (String.substring 15 (String.length t - 15) t) else match t with EmptyString => None | String _ r => after_marker r end.
(* _missing_module_from_error (app.py lines 78-85) *)
Definition missing_module (name : option string) (msg : string) : option string :=
  match name with
  | Some (String c r) => Some (String c r)
  | _ => match after_marker msg with Some t => Some (string_of_list_ascii (strip_quotes (OmlModel.strip (list_ascii_of_string t)))) | None => None end
  end.
(* _is_internal_import_error (app.py lines 88-94) *)
Definition internal (name : option string) (msg module : string) : bool :=
  match missing_module name msg with None => true | Some m => String.eqb m module || String.prefix "modssc" m end.
(* the start ends with the error of the brick *)
Inductive start := Started (l : list status) | Fails (module msg : string).
Section Register.
Variable load : string -> outcome.
(* _try_add_typer (app.py lines 97-119); the text of the RuntimeError of a module without app is shortened *)
Definition try_add (module name : string) : status + string :=
  match load module with
  | Other msg => inr msg
  | ImportFails n msg =>
    if internal n msg module then inr msg
    else inl {| s_module := module; s_name := name; s_available := false; s_error := Some msg; s_missing := missing_module n msg; s_hint := hint_for name (missing_module n msg) |}
  | Module false => inr "no app"
  | Module true => inl {| s_module := module; s_name := name; s_available := true; s_error := None; s_missing := None; s_hint := None |}
  end.
(* the calls at the end of the module (app.py lines 156-164) *)
Fixpoint register (l : list (string * string)) : start :=
  match l with
  | [] => Started []
  | (m, n) :: r => match try_add m n with inr e => Fails m e | inl s => match register r with Started ss => Started (s :: ss) | x => x end end
  end.
End Register.
Definition bricks : list (string * string) := map (fun n => ("modssc.cli." ++ n, n)%string) ["datasets"; "sampling"; "preprocess"; "graph"; "augmentation"; "evaluation"; "inductive"; "transductive"; "supervised"].
(* doctor (app.py lines 122-152): the lines of the text form, and the code *)
Definition filled (x : option string) : option string := match x with Some (String c r) => Some (String c r) | _ => None end.
Definition doctor_lines (s : status) : list string :=
  if s_available s then [s_name s ++ ": ok"]%string
  else [match filled (s_error s) with Some e => s_name s ++ ": unavailable (" ++ e ++ ")" | None => s_name s ++ ": unavailable" end]%string
       ++ (match filled (s_missing s) with Some m => ["  missing module: " ++ m]%string | None => [] end)
       ++ (match filled (s_hint s) with Some h => ["  install: pip install ""modssc[" ++ h ++ "]"""]%string | None => [] end).
Definition doctor (l : list status) : list string * Z := (flat_map doctor_lines l, if existsb (fun s => negb (s_available s)) l then 2 else 0).
