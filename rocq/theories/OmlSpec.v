(* Vocabulary for C159: OpenML references. *)
From Coq Require Import String Ascii.
From Verif Require Import Prelude PyValue RegModel OmlModel.
Local Open Scope string_scope.
Local Open Scope Z_scope.
Local Open Scope list_scope.
Local Notation length := List.length.

(* white space: tab, line feed, vertical tab, form feed, carriage return, the four separators and the blank *)
Definition white (c : ascii) : Prop := In (nat_of_ascii c) [9; 10; 11; 12; 13; 28; 29; 30; 31; 32]%nat.
Definition blank (t : text) : Prop := forall c, In c t -> white c.
(* no white space at either end *)
Definition clean (t : text) : Prop := forall a r, (t = a :: r -> ~ white a) /\ (t = r ++ [a] -> ~ white a).
(* decimal numbers *)
Inductive reads_as : text -> Z -> Prop :=
  | reads_nil : reads_as [] 0
  | reads_digit t n c d : reads_as t n -> (d < 10)%nat -> c = ascii_of_nat (48 + d) -> reads_as (t ++ [c]) (10 * n + Z.of_nat d).
Definition number (t : text) (n : Z) : Prop := t <> [] /\ reads_as t n.
(* t is key=value, with white space anywhere around the two; the key has no "=" and neither has a comma *)
Definition written (kv : text * text) (t : text) : Prop :=
  exists b1 b2 b3 b4, blank b1 /\ blank b2 /\ blank b3 /\ blank b4 /\ clean (fst kv) /\ clean (snd kv) /\ ~ In "="%char (fst kv) /\ ~ In ","%char (fst kv) /\ ~ In ","%char (snd kv) /\
    t = b1 ++ fst kv ++ b2 ++ "="%char :: b3 ++ snd kv ++ b4.
Fixpoint join (ts : list text) : text := match ts with [] => [] | [t] => t | t :: r => t ++ ","%char :: join r end.
(* the last value given for a key *)
Fixpoint last_value (kvs : list (text * text)) (k : string) : option text :=
  match kvs with [] => None | (k', v) :: r => match last_value r k with Some w => Some w | None => if String.eqb (str k') k then Some v else None end end.
(* what becomes of the text given for a key: data_id is a number, version too if it is made of digits *)
Definition converted (o : Oracle) (k : string) (v : text) (w : pyval) : Prop :=
  (k = "data_id" -> exists i, parse_int o (str v) = Some i /\ w = PInt i) /\
  (k = "version" -> (exists n, number v n /\ w = PInt n) \/ ((forall n, ~ number v n) /\ w = PStr (str v))) /\
  (k <> "data_id" -> k <> "version" -> w = PStr (str v)).
(* a setting: from the options, else from the reference *)
Definition setting (base options : pydict) (k : string) : option pyval := match dget options k with Some v => Some v | None => dget base k end.
Definition texts (v : option pyval) : Prop := v = None \/ v = Some PNone \/ exists s, v = Some (PStr s).
(* the first of some settings that is a text with something in it *)
Fixpoint first_text (l : list (option pyval)) (d : string) : string :=
  match l with [] => d | Some (PStr s) :: r => if String.eqb s "" then first_text r d else s | _ :: r => first_text r d end.
