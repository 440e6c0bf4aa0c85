(* Model of json.dumps(obj, sort_keys=True, separators=(",", ":")), the text from which every fingerprint is hashed:
   src/modssc/sampling/fingerprint.py:9-11 stable_hash, src/modssc/graph/fingerprint.py:33-36 canonical_json,
   src/modssc/data_loader/types.py:87-96 and 147-156 (ensure_ascii=True), bench/utils/hashing.py:9-10 stable_json_dumps,
   src/modssc/preprocess/fingerprint.py:9-14 stable_json_dumps (ensure_ascii=False).
   A text is a list of Unicode code points. *)
From Coq Require Import String Ascii.
From Verif Require Import Prelude DecString.
Local Open Scope Z_scope.
Local Open Scope list_scope.

Definition text := list Z.
Definition codes (s : string) : text := map (fun c => Z.of_nat (nat_of_ascii c)) (list_ascii_of_string s).

(* F stands for floats.  Dictionaries have string keys; json.dumps turns other keys into strings. *)
Inductive json (F : Type) :=
| JNull | JBool (b : bool) | JInt (z : Z) | JFloat (f : F) | JStr (s : text)
| JList (l : list (json F)) | JDict (d : list (text * json F)).
Arguments JNull {F}. Arguments JBool {F}. Arguments JInt {F}. Arguments JFloat {F}. Arguments JStr {F}. Arguments JList {F}. Arguments JDict {F}.

(* ---- strings: CPython json.encoder py_encode_basestring_ascii / py_encode_basestring *)
Definition hex_digit (d : Z) : Z := if d <? 10 then 48 + d else 87 + d.
Definition hex4 (c : Z) : text :=
  [hex_digit (c / 4096 mod 16); hex_digit (c / 256 mod 16); hex_digit (c / 16 mod 16); hex_digit (c mod 16)].
(* one code unit *)
Definition escape_unit (ascii : bool) (c : Z) : text :=
  if c =? 92 then [92; 92]
  else if c =? 34 then [92; 34]
  else if c =? 10 then [92; 110]
  else if c =? 13 then [92; 114]
  else if c =? 9 then [92; 116]
  else if c =? 12 then [92; 102]
  else if c =? 8 then [92; 98]
  else if (32 <=? c) && ((c <=? 126) || negb ascii) then [c]
  else 92 :: 117 :: hex4 c.
(* with ensure_ascii a code point beyond 16 bits is written as a surrogate pair *)
Definition escape (ascii : bool) (c : Z) : text :=
  if ascii && (65536 <=? c)
  then escape_unit ascii (55296 + (c - 65536) / 1024) ++ escape_unit ascii (56320 + (c - 65536) mod 1024)
  else escape_unit ascii c.
Definition quote (ascii : bool) (s : text) : text := 34 :: flat_map (escape ascii) s ++ [34].

(* ---- sorted(dct.items()): by key, code point by code point *)
Fixpoint text_leb (a b : text) : bool :=
  match a, b with
  | [], _ => true
  | _ :: _, [] => false
  | x :: a, y :: b => if x <? y then true else if y <? x then false else text_leb a b
  end.
Fixpoint insert_key {A} (e : text * A) (l : list (text * A)) : list (text * A) :=
  match l with [] => [e] | f :: r => if text_leb (fst e) (fst f) then e :: l else f :: insert_key e r end.
Fixpoint sort_keys {A} (l : list (text * A)) : list (text * A) :=
  match l with [] => [] | e :: r => insert_key e (sort_keys r) end.

Fixpoint commas (l : list text) : text :=
  match l with [] => [] | [x] => x | x :: r => x ++ 44 :: commas r end.

(* ---- the encoder; show_float is float.__repr__, or NaN, Infinity, -Infinity *)
Section Encode.
Context {F : Type}.
Variable show_float : F -> text.
Variable ascii : bool.
Fixpoint encode (v : json F) : text :=
  match v with
  | JNull => codes "null"
  | JBool true => codes "true"
  | JBool false => codes "false"
  | JInt z => codes (dec z)
  | JFloat f => show_float f
  | JStr s => quote ascii s
  | JList l => 91 :: commas (map encode l) ++ [93]
  | JDict d => 123 :: commas (map (fun e => quote ascii (fst e) ++ 58 :: snd e)
                                  (sort_keys (map (fun e => (fst e, encode (snd e))) d))) ++ [125]
  end.
End Encode.

(* str.encode("utf-8") refuses surrogates; the bytes themselves determine the text and are not modelled *)
Definition surrogate (c : Z) : bool := (55296 <=? c) && (c <=? 57343).
Definition utf8 (t : text) : result text := if existsb surrogate t then Err ValueError else Ok t.
(* the text that is hashed *)
Definition hashed_text {F} (show_float : F -> text) (ascii : bool) (v : json F) : result text :=
  utf8 (encode show_float ascii v).
