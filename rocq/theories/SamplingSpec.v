(* Specification vocabulary for the sampling theorems.  It does not use the model. *)
From Coq Require Import QArith Qabs.
From Verif Require Import Prelude FloatModel.
Local Open Scope Z_scope.

(* strictly increasing, hence duplicate-free *)
Notation ascending := (StronglySorted Z.lt).

(* the lists in [parts] are strictly increasing, pairwise disjoint, and cover exactly [universe] *)
Record is_partition (universe : Z -> Prop) (parts : list (list Z)) : Prop := {
  part_sorted : forall p, In p parts -> ascending p;
  part_covers : forall x, universe x <-> exists p, In p parts /\ In x p;
  part_disjoint : forall i j x, i <> j ->
    In x (nth i parts []) -> In x (nth j parts []) -> False
}.

(* number of elements of l carrying label c *)
Definition class_size (lab : Z -> Z) (c : Z) (l : list Z) : Z :=
  lenZ (filter (fun i => lab i =? c) l).

(* exact value of a finite float *)
Definition f64_value (x : f64) : option Q :=
  match x with
  | SpecFloat.S754_zero _ => Some 0%Q
  | SpecFloat.S754_finite s m e =>
      Some (inject_Z (if s then Z.neg m else Z.pos m) * Qpower 2 e)%Q
  | _ => None
  end.

(* r is the integer nearest to q, ties to even *)
Definition nearest_even (q : Q) (r : Z) : Prop :=
  (2 * Qabs (q - inject_Z r) <= 1)%Q /\
  ((2 * Qabs (q - inject_Z r) == 1)%Q -> Z.even r = true).

(* r is int(round(float(f) * float(n))): the float product rounded to the nearest integer *)
Definition rounded_share (f : f64) (n r : Z) : Prop :=
  exists q, f64_value (f64_mul f (f64_of_Z n)) = Some q /\ nearest_even q r.

Definition share_size (f : f64) (n size : Z) : Prop :=
  exists r, rounded_share f n r /\ size = clampZ 0 n r.
