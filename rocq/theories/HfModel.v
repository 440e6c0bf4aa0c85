(* Model of the Hugging Face provider (src/modssc/data_loader/providers/hf.py).  Text is ASCII; labels are integers; the limits are ProvModel.v. *)
From Coq Require Import String Ascii.
From Verif Require Import Prelude PyValue RegModel OmlModel ProvModel.
Local Open Scope string_scope.
Local Open Scope Z_scope.
Local Open Scope list_scope.
Local Notation length := List.length.

(* ref.split("/", 1) of a text with "/" in it *)
Fixpoint cut_slash (s : text) : option (text * text) :=
  match s with
  | [] => None
  | a :: r => if Ascii.eqb a "/" then Some ([], r) else match cut_slash r with Some (k, v) => Some (a :: k, v) | None => None end
  end.
(* _split_ref (hf.py lines 37-44) *)
Definition split_ref (ref : text) : text * option text :=
  let ref := strip ref in
  match cut_slash ref with
  | Some (name, cfg) => (strip name, match strip cfg with [] => None | c => Some c end)
  | None => (ref, None)
  end.

Section Hf.
(* str() of values *)
Variable o : Oracle.
(* the identity of a data set (hf.py lines 51-78), as far as hf decides it *)
Record identity := { h_uri : string; h_id : text; h_config : pyval; h_text : pyval; h_label : pyval; h_prefer : bool; h_filter : option (list pyval);
                     h_max_train : pyval; h_max_test : pyval; h_seed : pyval; h_modality : string; h_task : string }.
(* resolve (hf.py lines 51-78); reference: the text after "hf:" *)
Definition resolve (reference : text) (options : pydict) : identity :=
  let '(name, cfg) := split_ref reference in
  let config := match cfg with Some c => PStr (str c) | None => none_get options "config" end in
  {| h_uri := ("hf:" ++ str name ++ (if py_bool config then "/" ++ py_str o config else ""))%string;
     h_id := name; h_config := config; h_text := get_else options "text_column" (PStr "text"); h_label := get_else options "label_column" (PStr "label");
     h_prefer := py_bool (get_else options "prefer_test_split" (PBool true)); h_filter := normalize_filter (none_get options "class_filter");
     h_max_train := none_get options "max_train_samples"; h_max_test := none_get options "max_test_samples"; h_seed := none_get options "seed";
     h_modality := py_str o (get_else options "modality" (PStr "text")); h_task := py_str o (get_else options "task" (PStr "classification")) |}.
(* the arguments of load_dataset (hf.py lines 96-99) *)
Definition request_of (id : identity) : text * option pyval := (h_id id, match h_config id with PNone => None | c => Some c end).

(* a split: its columns of samples and of labels *)
Context {A : Type}.
Record rows := { r_samples : list (string * list A); r_labels : list (string * list Z) }.
(* what load_dataset returns: splits by name, or one split *)
Inductive source := Splits (l : list (string * rows)) | Single (r : rows).
Fixpoint look {B} (l : list (string * B)) (k : string) : option B := match l with [] => None | (k', v) :: r => if String.eqb k' k then Some v else look r k end.
Definition column {B} (l : list (string * B)) (k : string) : result B := match look l k with Some v => Ok v | None => Err KeyError end.
(* _extract_split (hf.py lines 140-144) *)
Definition extract_split (ds : source) (name tcol lcol : string) : result (list A * list Z) :=
  do r <- match ds with Splits l => column l name | Single r => Ok r end;
  do x <- column (r_samples r) tcol;
  do y <- column (r_labels r) lcol;
  Ok (x, y).
(* _extract_official_test (hf.py lines 127-137) *)
Fixpoint first_present (ds : source) (l : list (string * rows)) (names : list string) (tcol lcol : string) : result (option (list A * list Z)) :=
  match names with
  | [] => Ok None
  | n :: r => match look l n with Some _ => do s <- extract_split ds n tcol lcol; Ok (Some s) | None => first_present ds l r tcol lcol end
  end.
Definition official_test (ds : source) (tcol lcol : string) (prefer_test : bool) : result (option (list A * list Z)) :=
  match ds with Single _ => Ok None | Splits l => first_present ds l (if prefer_test then ["test"; "validation"] else ["validation"; "test"]) tcol lcol end.
(* load_canonical after the download (hf.py lines 101-118) *)
Definition load_hf (shuffle : Z -> nat -> list nat) (id : identity) (cf : option (list Z)) (max_train max_test seed : option Z) (ds : source) : result ((list A * list Z) * option (list A * list Z)) :=
  do train <- extract_split ds "train" (py_str o (h_text id)) (py_str o (h_label id));
  do test <- official_test ds (py_str o (h_text id)) (py_str o (h_label id)) (h_prefer id);
  load_splits shuffle cf max_train max_test seed train test.
End Hf.
