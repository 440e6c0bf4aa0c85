(* When two JSON values are the same, and what is assumed of float.__repr__. *)
From Coq Require Import String.
From Verif Require Import Prelude DecString JsonModel.
Local Open Scope Z_scope.
Local Open Scope list_scope.

(* equal up to the order of the entries of dictionaries, at every depth *)
Inductive same {F} : json F -> json F -> Prop :=
| same_null : same JNull JNull
| same_bool b : same (JBool b) (JBool b)
| same_int z : same (JInt z) (JInt z)
| same_float f : same (JFloat f) (JFloat f)
| same_str s : same (JStr s) (JStr s)
| same_list l m : Forall2 same l m -> same (JList l) (JList m)
| same_dict d e e' : Permutation e e' -> Forall2 (fun a b => fst a = fst b /\ same (snd a) (snd b)) d e -> same (JDict d) (JDict e').

(* a Python string: code points, no two adjacent ones of which form a surrogate pair *)
Definition high (c : Z) : Prop := 55296 <= c <= 56319.
Definition low (c : Z) : Prop := 56320 <= c <= 57343.
Definition code_points (s : text) : Prop := forall c, In c s -> 0 <= c < 1114112.
Fixpoint unpaired (s : text) : Prop :=
  match s with c :: ((d :: _) as r) => ~ (high c /\ low d) /\ unpaired r | _ => True end.

(* a Python value: keys of a dictionary differ, texts satisfy P *)
Inductive proper {F} (P : text -> Prop) : json F -> Prop :=
| proper_null : proper P JNull
| proper_bool b : proper P (JBool b)
| proper_int z : proper P (JInt z)
| proper_float f : proper P (JFloat f)
| proper_str s : P s -> proper P (JStr s)
| proper_list l : Forall (proper P) l -> proper P (JList l)
| proper_dict d : NoDup (map fst d) -> Forall (fun e => P (fst e) /\ proper P (snd e)) d -> proper P (JDict d).

(* characters of numbers: digits - + . e, and the letters of NaN and Infinity except n, t and f at the start *)
Definition number_char (c : Z) : Prop := c <> 44 /\ c <> 93 /\ c <> 125 /\ c <> 34 /\ c <> 91 /\ c <> 123.
Definition float_repr {F} (show_float : F -> text) : Prop :=
  (forall f g, show_float f = show_float g -> f = g) /\
  (forall f, Forall number_char (show_float f)) /\
  (forall f z, show_float f <> codes (dec z)) /\
  (forall f, exists c r, show_float f = c :: r /\ c <> 110 /\ c <> 116 /\ c <> 102).
