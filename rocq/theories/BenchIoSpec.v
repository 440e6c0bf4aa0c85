(* Vocabulary for environment placeholders, "auto" values and run directories. *)
From Coq Require Import String Ascii.
From Verif Require Import Prelude FloatModel PyValue DecString LimitsModel LimitsSpec BenchIoModel.
Local Open Scope string_scope.
Local Open Scope Z_scope.
Local Open Scope list_scope.
Local Notation length := List.length.

(* ----- placeholders ----- *)
Definition letters : text := list_ascii_of_string "ABCDEFGHIJKLMNOPQRSTUVWXYZabcdefghijklmnopqrstuvwxyz_".
Definition digits : text := list_ascii_of_string "0123456789".
(* the name of a variable: a letter or underscore, then letters, underscores and digits *)
Definition variable_name (n : text) : Prop :=
  exists c r, n = c :: r /\ In c letters /\ forall x, In x r -> In x letters \/ In x digits.
(* the two ways of writing a placeholder: ${NAME}, or $NAME where the name is as long as it can be *)
Definition written (braces : bool) (n : text) : text :=
  if braces then ("$" :: "{" :: n ++ ["}"])%char else ("$" :: n)%char.
Definition last_is (t : text) (c : ascii) : Prop := exists a, t = a ++ [c].
(* the text has a placeholder for n after `before`: its dollar does not follow another dollar or a backslash *)
Definition placeholder_after (s before : text) (braces : bool) (n : text) : Prop :=
  exists after, s = before ++ written braces n ++ after /\ variable_name n /\
    ~ last_is before "$" /\ ~ last_is before "\" /\
    (braces = false -> forall c r, after = c :: r -> ~ In c letters /\ ~ In c digits).

(* a text cut into plain stretches and placeholders *)
Inductive piece := Plain (t : text) | Placeholder (braces : bool) (n : text).
Definition piece_text (p : piece) : text := match p with Plain t => t | Placeholder b n => written b n end.
Definition joined (ps : list piece) : text := concat (map piece_text ps).
(* the pieces make up the text, and the placeholders among them are exactly those of the text *)
Definition cut_of (s : text) (ps : list piece) : Prop :=
  joined ps = s /\
  forall before b n, placeholder_after s before b n <->
    exists front back, ps = front ++ Placeholder b n :: back /\ before = joined front.
(* the placeholders replaced by values *)
Definition replaced (value : text -> option text) (ps : list piece) (t : text) : Prop :=
  exists ts, t = concat ts /\
    Forall2 (fun p u => match p with Plain x => u = x | Placeholder _ n => value n = Some u end) ps ts.
(* the environment's value, else the default *)
Definition value_of (env defaults : text -> option text) (n : text) : option text :=
  match env n with Some v => Some v | None => defaults n end.
(* t is s with its placeholders replaced *)
Definition expanded (value : text -> option text) (s t : text) : Prop := exists ps, cut_of s ps /\ replaced value ps t.

(* ----- "auto" values ----- *)
(* spaces, tabs, line breaks around, any capitals *)
Definition blank (c : ascii) : Prop := In (nat_of_ascii c) [9; 10; 11; 12; 13; 28; 29; 30; 31; 32]%nat.
Definition either (a b c : ascii) : Prop := c = a \/ c = b.
Definition auto_text (s : string) : Prop :=
  exists before a u t o after, list_ascii_of_string s = before ++ [a; u; t; o] ++ after /\
    Forall blank before /\ Forall blank after /\
    either "a" "A" a /\ either "u" "U" u /\ either "t" "T" t /\ either "o" "O" o.
Definition auto_setting (k : string) : Prop :=
  k = "device" \/ k = "backend" \/ k = "classifier_backend" \/ k = "profile".

(* ----- run directories ----- *)
(* the process has its directory *)
Definition owns (p : pstate) (n : string) : Prop :=
  p = Made n \/ p = Filled n \/ (exists k, p = Relooking n k) \/ (exists m, p = Redecided n m) \/ p = Moved n.

(* what expanding does to the value at a place: a text is replaced, containers keep their keys and sizes, any
   other value is kept *)
Definition expands_to (value : text -> option text) (a b : option pyval) : Prop :=
  match a, b with
  | None, None => True
  | Some (PStr s), Some (PStr t) => expanded value (list_ascii_of_string s) (list_ascii_of_string t)
  | Some (PDict d), Some (PDict e) => map fst d = map fst e
  | Some (PList l), Some (PList m) => length l = length m
  | Some x, Some y => x = y /\ (forall s, x <> PStr s)
  | _, _ => False
  end.

(* the wanted name, then the wanted name followed by __r01, __r02, ... *)
Definition numbered (base : string) (k : nat) : string :=
  if Nat.eqb k 0 then base
  else (base ++ "__r" ++ (if Nat.ltb k 10 then "0" else "") ++ dec (Z.of_nat k))%string.
