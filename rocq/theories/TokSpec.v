(* Vocabulary for the tokenizers' properties, independent of TokModel's algorithms. *)
From Coq Require Import String.
From Verif Require Import Prelude.
Local Open Scope Z_scope.
Local Open Scope list_scope.
Local Notation length := List.length.

(* the text a position of the data set designates (negative positions count from the end) *)
Definition designates {A} (rows : list A) (i : Z) (x : A) : Prop :=
  - lenZ rows <= i < lenZ rows /\ nth_error rows (Z.to_nat (i mod lenZ rows)) = Some x.

(* how often a word occurs in a list of words *)
Definition occurrences (ws : list string) (w : string) : Z :=
  Z.of_nat (count_occ string_dec ws w).
(* a occurs for the first time before b does (both occur, and some prefix contains a and not b) *)
Definition seen_first (ws : list string) (a b : string) : Prop :=
  exists before after, ws = before ++ after /\ In a before /\ ~ In b before.
(* a has precedence over b: it occurs more often, or as often and first *)
Definition precedes (ws : list string) (a b : string) : Prop :=
  In a ws /\
  (occurrences ws b < occurrences ws a \/
   (occurrences ws a = occurrences ws b /\ seen_first ws a b)).
(* n words have precedence over w *)
Definition ranked (ws : list string) (w : string) (n : Z) : Prop :=
  exists before, NoDup before /\ lenZ before = n /\ (forall a, In a before <-> precedes ws a w).

(* the cell of a table *)
Definition cell (m : list (list Z)) (i j : nat) : option Z :=
  match nth_error m i with Some row => nth_error row j | None => None end.
(* a table of n rows and width L *)
Definition table (m : list (list Z)) (n : nat) (L : Z) : Prop :=
  length m = n /\ forall row, In row m -> lenZ row = L.

(* A text of ASCII characters in lower case, cut at white space: what str(text).lower().split() gives
   on such a text.  Used to show that the hypotheses of the theorems can be met. *)
Definition lower_char (c : Ascii.ascii) : Ascii.ascii :=
  let n := Ascii.nat_of_ascii c in
  if (Nat.leb 65 n && Nat.leb n 90)%bool then Ascii.ascii_of_nat (n + 32) else c.
Fixpoint ascii_lower (s : string) : string :=
  match s with EmptyString => EmptyString | String c r => String (lower_char c) (ascii_lower r) end.
Definition is_space (c : Ascii.ascii) : bool :=
  let n := Ascii.nat_of_ascii c in
  (Nat.eqb n 32 || (Nat.leb 9 n && Nat.leb n 13) || (Nat.leb 28 n && Nat.leb n 31))%bool.
Definition flush (cur : string) : list string :=
  match cur with EmptyString => [] | _ => [cur] end.
Fixpoint cut (s cur : string) : list string :=
  match s with
  | EmptyString => flush cur
  | String c r => if is_space c then flush cur ++ cut r EmptyString
                  else cut r (String.append cur (String c EmptyString))
  end.
Definition ascii_split (s : string) : list string := cut s EmptyString.
Definition ascii_words (s : string) : list string := ascii_split (ascii_lower s).
(* a capital ASCII letter *)
Definition is_capital (c : Ascii.ascii) : bool :=
  let n := Ascii.nat_of_ascii c in (Nat.leb 65 n && Nat.leb n 90)%bool.
Fixpoint has_capital (s : string) : bool :=
  match s with EmptyString => false | String c r => is_capital c || has_capital r end.
