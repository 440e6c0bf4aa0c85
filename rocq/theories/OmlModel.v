(* Model of OpenML references and requests (src/modssc/data_loader/providers/openml.py).  Text is ASCII: str.isdigit and str.strip of other
   characters are not modelled. *)
From Coq Require Import String Ascii.
From Verif Require Import Prelude PyValue RegModel.
Local Open Scope string_scope.
Local Open Scope Z_scope.
Local Open Scope list_scope.
Local Notation length := List.length.

Definition text := list ascii.
(* the characters str.strip() removes *)
Definition is_space (c : ascii) : bool := let n := nat_of_ascii c in ((9 <=? n) && (n <=? 13))%nat || ((28 <=? n) && (n <=? 32))%nat.
Fixpoint lstrip (s : text) : text := match s with c :: r => if is_space c then lstrip r else s | [] => [] end.
Definition rstrip (s : text) : text := rev (lstrip (rev s)).
Definition strip (s : text) : text := rstrip (lstrip s).
(* s.split(c) *)
Fixpoint split_on (c : ascii) (s : text) : list text :=
  match s with
  | [] => [[]]
  | a :: r => if Ascii.eqb a c then [] :: split_on c r else match split_on c r with p :: ps => (a :: p) :: ps | [] => [[a]] end
  end.
(* p.split("=", 1) of a text with "=" in it *)
Fixpoint cut (s : text) : option (text * text) :=
  match s with
  | [] => None
  | a :: r => if Ascii.eqb a "=" then Some ([], r) else match cut r with Some (k, v) => Some (a :: k, v) | None => None end
  end.
Definition is_digit (c : ascii) : bool := let n := nat_of_ascii c in ((48 <=? n) && (n <=? 57))%nat.
Definition isdigit (s : text) : bool := negb (Nat.eqb (length s) 0) && forallb is_digit s.
Definition int_of (s : text) : Z := fold_left (fun a c => 10 * a + Z.of_nat (nat_of_ascii c - 48)) s 0.
Definition str (t : text) : string := string_of_list_ascii t.
Definition txt (s : string) : text := list_ascii_of_string s.

Section OpenML.
(* int() of a text and str() of a value *)
Variable o : Oracle.
(* the pairs of one part of the reference (openml.py lines 31-35): parts without "=" are passed over *)
Definition add_part (out : pydict) (p : text) : pydict := match cut p with None => out | Some (k, v) => dput out (str (strip k)) (PStr (str (strip v))) end.
(* _parse_openml_ref (openml.py lines 24-43) *)
Definition parse_ref (ref : text) : result pydict :=
  let ref := strip ref in
  if isdigit ref then Ok [("data_id", PInt (int_of ref))]
  else
    let parts := filter (fun p => negb (Nat.eqb (length p) 0)) (map strip (split_on "," ref)) in
    let out := fold_left add_part parts [] in
    do out <- match dget out "data_id" with Some v => do i <- py_int o v; Ok (dput out "data_id" (PInt i)) | None => Ok out end;
    Ok (match dget out "version" with
        | Some (PStr v) => if isdigit (txt v) then dput out "version" (PInt (int_of (txt v))) else out
        | _ => out
        end).
(* {**base, **options} *)
Definition merge (base options : pydict) : pydict := fold_left (fun d kv => dput d (fst kv) (snd kv)) options base.
Definition get_else (d : pydict) (k : string) (v : pyval) : pyval := match dget d k with Some w => w | None => v end.
Definition none_get (d : pydict) (k : string) : pyval := match dget d k with Some v => v | None => PNone end.
(* normalize_filter (src/modssc/data_loader/providers/common.py lines 10-15), of None, lists and single values *)
Definition normalize_filter (v : pyval) : option (list pyval) := match v with PNone => None | PList l => Some l | v => Some [v] end.

(* what the identity of a data set holds (openml.py lines 66-91), as far as openml decides it *)
Record identity := { i_uri : string; i_id : string; i_version : option string; i_task : string; i_data_id : pyval; i_name : pyval; i_kversion : pyval; i_frame : bool; i_target : pyval;
                     i_filter : option (list pyval); i_max : pyval; i_seed : pyval }.
(* resolve (openml.py lines 50-91); reference: the text after "openml:" *)
Definition resolve (reference : text) (options : pydict) : result identity :=
  do base <- parse_ref reference;
  let cfg := merge base options in
  do ' (uri, id) <- match dget cfg "data_id" with
    | Some v => do i <- py_int o v; Ok ("openml:" ++ py_str o (PInt i), py_str o (PInt i))%string
    | None =>
      let first := if py_bool (none_get cfg "name") then none_get cfg "name" else if py_bool (none_get cfg "dataset") then none_get cfg "dataset" else if py_bool (none_get cfg "data_name") then none_get cfg "data_name" else PStr "" in
      let name := py_str o first in
      let name := if String.eqb name "" then str reference else name in
      Ok ("openml:name=" ++ name, name)%string
    end;
  Ok {| i_uri := uri; i_id := id; i_version := match none_get cfg "version" with PNone => None | v => Some (py_str o v) end;
        i_task := py_str o (get_else cfg "task" (PStr "classification"));
        i_data_id := none_get cfg "data_id"; i_name := none_get cfg "name"; i_kversion := none_get cfg "version"; i_frame := py_bool (get_else cfg "as_frame" (PBool false));
        i_target := none_get cfg "target_column"; i_filter := normalize_filter (none_get cfg "class_filter"); i_max := none_get cfg "max_samples"; i_seed := none_get cfg "seed" |}.

(* the call of fetch_openml (openml.py lines 100-117) *)
Inductive which := ById (i : Z) | ByName (n : string).
Record request := { q_which : which; q_version : option pyval; q_frame : bool }.
Definition request_of (id : identity) : result request :=
  do w <- match i_data_id id with
    | PNone => Ok (ByName (py_str o (if py_bool (i_name id) then i_name id else PStr (i_id id))))
    | v => do i <- py_int o v; Ok (ById i)
    end;
  Ok {| q_which := w; q_version := match i_kversion id with PNone => None | v => Some v end; q_frame := i_frame id |}.
End OpenML.
