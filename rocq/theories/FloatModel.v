(* IEEE binary64 values as used by the Python code, through the computable specification floats of
   the standard library (SpecFloat, no axioms). *)
From Coq Require Import ZArith SpecFloat QArith Qround.
From Verif Require Import Prelude.
Local Open Scope Z_scope.

Definition f64 := spec_float.
Definition prec := 53.
Definition emax := 1024.

(* float(n) for a Python int: correctly rounded *)
Definition f64_of_Z (n : Z) : f64 := binary_normalize prec emax n 0 false.
Definition f64_mul (a b : f64) : f64 := SFmul prec emax a b.
Definition f64_ltb (a b : f64) : bool := SFltb a b.
Definition f64_leb (a b : f64) : bool := SFleb a b.
Definition f64_zero : f64 := S754_zero false.
Definition f64_one : f64 := f64_of_Z 1.

(* round half to even of n / d, d > 0 *)
Definition round_half_even_div (n d : Z) : Z :=
  let q := n / d in
  let r := n mod d in
  if 2 * r <? d then q
  else if d <? 2 * r then q + 1
  else if Z.even q then q else q + 1.

(* Python's int(round(x)) on a float: ties to even; NaN raises ValueError, an infinity
   OverflowError. *)
Definition py_round (x : f64) : result Z :=
  match x with
  | S754_zero _ => Ok 0
  | S754_infinity _ => Err OverflowError
  | S754_nan => Err ValueError
  | S754_finite s m e =>
      let v := if s then Z.neg m else Z.pos m in
      Ok (if 0 <=? e then v * 2 ^ e else round_half_even_div v (2 ^ (- e)))
  end.

(* int(round(float(f) * float(n))) *)
Definition round_mul (f : f64) (n : Z) : result Z := py_round (f64_mul f (f64_of_Z n)).
