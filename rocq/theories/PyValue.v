(* JSON-like Python values and the conversions bool(), int(), float(), str() applied to them by the
   configuration code.  What Python does with strings (int("3"), float("0.5")) and how it prints a
   non-string is left to an arbitrary oracle. *)
From Coq Require Import String SpecFloat.
From Verif Require Import Prelude FloatModel.
Local Open Scope list_scope.

Inductive pyval :=
| PNone
| PBool (b : bool)
| PInt (z : Z)
| PFloat (f : f64)
| PStr (s : string)
| PList (l : list pyval)
| PDict (d : list (string * pyval)).

Record Oracle := {
  parse_int : string -> option Z;
  parse_float : string -> option f64;
  show : pyval -> string
}.

Definition pydict := list (string * pyval).

(* d.get(k) *)
Definition lookup (d : pydict) (k : string) : option pyval :=
  match find (fun p => String.eqb (fst p) k) d with Some p => Some (snd p) | None => None end.
(* d.get(k, default) *)
Definition get_or (d : pydict) (k : string) (dflt : pyval) : pyval :=
  match lookup d k with Some v => v | None => dflt end.

Definition py_bool (v : pyval) : bool :=
  match v with
  | PNone => false
  | PBool b => b
  | PInt z => negb (z =? 0)
  | PFloat f => match f with S754_zero _ => false | _ => true end
  | PStr s => negb (String.eqb s "")
  | PList l => negb (Nat.eqb (length l) 0)
  | PDict d => negb (Nat.eqb (length d) 0)
  end.

Definition f64_trunc (f : f64) : result Z :=
  match f with
  | S754_zero _ => Ok 0
  | S754_infinity _ => Err OverflowError
  | S754_nan => Err ValueError
  | S754_finite s m e =>
      let a := if 0 <=? e then Z.pos m * 2 ^ e else Z.pos m / 2 ^ (- e) in
      Ok (if s then - a else a)
  end.

Definition py_int (o : Oracle) (v : pyval) : result Z :=
  match v with
  | PBool b => Ok (if b then 1 else 0)
  | PInt z => Ok z
  | PFloat f => f64_trunc f
  | PStr s => match parse_int o s with Some z => Ok z | None => Err ValueError end
  | _ => Err TypeError
  end.

Definition py_float (o : Oracle) (v : pyval) : result f64 :=
  match v with
  | PBool b => Ok (if b then f64_one else f64_zero)
  | PInt z => match f64_of_Z z with S754_infinity _ => Err OverflowError | f => Ok f end
  | PFloat f => Ok f
  | PStr s => match parse_float o s with Some f => Ok f | None => Err ValueError end
  | _ => Err TypeError
  end.

Definition py_str (o : Oracle) (v : pyval) : string :=
  match v with PStr s => s | _ => show o v end.

(* [int(i) for i in l] *)
Fixpoint py_ints (o : Oracle) (l : list pyval) : result (list Z) :=
  match l with
  | [] => Ok []
  | v :: r => do z <- py_int o v; do zs <- py_ints o r; Ok (z :: zs)
  end.

Definition keys (d : pydict) : list string := map fst d.
Definition memS (k : string) (l : list string) : bool := existsb (String.eqb k) l.
