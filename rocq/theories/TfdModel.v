(* Model of the TensorFlow Datasets provider (src/modssc/data_loader/providers/tfds.py).  Text is ASCII.  What tfds.load answers is arbitrary; references are cut as in HfModel.v, the code is the same. *)
From Coq Require Import String Ascii.
From Verif Require Import Prelude PyValue RegModel OmlModel HfModel.
Local Open Scope string_scope.
Local Open Scope list_scope.
Local Notation length := List.length.

(* _split_name_version (tfds.py lines 15-22) *)
Definition split_name_version (ref : text) : text * option text :=
  let ref := strip ref in
  match cut_slash ref with
  | Some (name, version) => (strip name, match strip version with [] => None | v => Some v end)
  | None => (ref, None)
  end.

Section Tfds.
(* str() of values *)
Variable o : Oracle.
Record identity := { t_uri : string; t_name : text; t_version : option text; t_supervised : bool; t_modality : string; t_task : string }.
(* resolve (tfds.py lines 29-47) *)
Definition resolve (reference : text) (options : pydict) : identity :=
  let '(name, version) := split_name_version reference in
  {| t_uri := ("tfds:" ++ str name ++ match version with Some v => "/" ++ str v | None => "" end)%string;
     t_name := name; t_version := version; t_supervised := py_bool (get_else options "as_supervised" (PBool true));
     t_modality := py_str o (get_else options "modality" (PStr "unknown")); t_task := py_str o (get_else options "task" (PStr "classification")) |}.
(* the name that is loaded (tfds.py line 64) *)
Definition full_name (id : identity) : string := match t_version id with Some v => (str (t_name id) ++ ":" ++ str v)%string | None => str (t_name id) end.

Context {A : Type}.
(* an item: entries without names (a tuple), or a dictionary of features *)
Inductive item := Entries (l : list A) | Features (l : list (string * A)).
(* what x or y is bound to: a value, or the name of a feature *)
Inductive cell := Val (a : A) | Key (k : string).
(* x, y = item (tfds.py line 95) *)
Definition unpack (i : item) : result (cell * cell) :=
  match i with
  | Entries [x; y] => Ok (Val x, Val y)
  | Features [(x, _); (y, _)] => Ok (Key x, Key y)
  | _ => Err ValueError
  end.
(* _materialize_tfds (tfds.py lines 87-98) *)
Fixpoint materialize (l : list item) : result (list cell * list cell) :=
  match l with
  | [] => Ok ([], [])
  | i :: l => do ' (x, y) <- unpack i; do ' (X, Y) <- materialize l; Ok (x :: X, y :: Y)
  end.
(* tfds.load: name, split, as_supervised *)
Definition loader := string -> string -> bool -> result (list item).
(* load_canonical (tfds.py lines 49-84); the calls it makes are returned too *)
Definition load_tfds (library : option loader) (id : identity) : result ((list cell * list cell) * option (list cell * list cell)) * list (string * string * bool) :=
  match library with
  | None => (Err OptionalDependencyError, [])
  | Some tfds =>
    let name := full_name id in let s := t_supervised id in
    match tfds name "train" s with
    | Err e => (Err e, [(name, "train", s)])
    | Ok train =>
      let test := match tfds name "test" s with Ok t => Some t | Err _ => None end in
      (do a <- materialize train;
       match test with None => Ok (a, None) | Some t => do b <- materialize t; Ok (a, Some b) end, [(name, "train", s); (name, "test", s)])
    end
  end.
End Tfds.
