(* Vocabulary for the linear feature steps. *)
From Coq Require Import QArith.
From Verif Require Import Prelude QFacts TransModel.
Local Open Scope Q_scope.
Local Open Scope list_scope.

(* f 0 + ... + f (n - 1) *)
Definition sum_to (n : nat) (f : nat -> Q) : Q := Qsum (map f (seq 0 n)).
Definition delta (a b : nat) : Q := if Nat.eqb a b then 1 else 0.
(* inner product and squared distance of two vectors with d coordinates *)
Definition inner (d : nat) (x y : nat -> Q) : Q := sum_to d (fun j => x j * y j).
Definition distance2 (d : nat) (x y : nat -> Q) : Q := sum_to d (fun j => (x j - y j) * (x j - y j)).
Definition coords (l : list Q) : nat -> Q := fun j => nth j l 0.

(* the known values of a column, their average (0 when there is none), and the value of a cell of a
   row, the average standing for a missing one *)
Definition known (rows : list (list (option Q))) (j : nat) : list Q :=
  flat_map (fun r => match nth j r None with Some q => [q] | None => [] end) rows.
Definition average_known (rows : list (list (option Q))) (j : nat) : Q :=
  match known rows j with [] => 0 | l => Qsum l / inject_Z (lenZ l) end.
Definition value (rows : list (list (option Q))) (r : list (option Q)) (j : nat) : Q :=
  match nth j r None with Some q => q | None => average_known rows j end.
(* the middle of the fit rows, and the coordinates of a row seen from it (or from 0) *)
Definition middle (rows : list (list (option Q))) (j : nat) : Q :=
  Qsum (map (fun r => value rows r j) rows) / inject_Z (lenZ rows).
Definition seen (center : bool) (rows : list (list (option Q))) (r : list (option Q)) (j : nat) : Q :=
  if center then value rows r j - middle rows j else value rows r j.
(* the matrix given to the singular value decomposition *)
Definition seen_rows (center : bool) (d : nat) (rows : list (list (option Q))) : mat :=
  map (fun r => map (seen center rows r) (seq 0 d)) rows.

(* v is the third factor of a singular value decomposition of the matrix X of width d: X = U diag(s) v
   with orthonormal columns in U, orthonormal rows in v and descending s *)
Definition svd_of (d : nat) (X v : mat) : Prop :=
  length v = Nat.min (length X) d /\ (forall r, In r v -> length r = d) /\
  (forall a b, (a < length v)%nat -> (b < length v)%nat -> inner d (coords (nth a v [])) (coords (nth b v [])) == delta a b) /\
  exists U s,
    (forall a b, (a < length v)%nat -> (b < length v)%nat -> sum_to (length X) (fun i => U i a * U i b) == delta a b) /\
    (forall a b, (a <= b)%nat -> (b < length v)%nat -> 0 <= s b <= s a) /\
    forall i j, (i < length X)%nat -> (j < d)%nat -> entry X i j == sum_to (length v) (fun a => U i a * s a * entry v a j).

(* s and u are the eigenvalues and eigenvectors (the columns of u) of the symmetric matrix C *)
Definition eigh_of (d : nat) (C : nat -> nat -> Q) (s : list Q) (u : mat) : Prop :=
  length s = d /\
  (forall a b, (a < d)%nat -> (b < d)%nat -> sum_to d (fun i => entry u i a * entry u i b) == delta a b) /\
  (forall i j, (i < d)%nat -> (j < d)%nat -> sum_to d (fun a => entry u i a * entry u j a) == delta i j) /\
  forall i j, (i < d)%nat -> (j < d)%nat -> C i j == sum_to d (fun a => entry u i a * nth a s 0 * entry u j a).

(* average of column j, and average squared deviation along the direction w *)
Definition average (rows : mat) (j : nat) : Q := Qsum (map (fun r => nth j r 0) rows) / inject_Z (lenZ rows).
Definition variance (d : nat) (rows : mat) (w : nat -> Q) : Q :=
  Qsum (map (fun r => inner d (fun j => nth j r 0 - average rows j) w * inner d (fun j => nth j r 0 - average rows j) w) rows)
  / inject_Z (lenZ rows).
Definition covariance (rows : mat) (i j : nat) : Q :=
  Qsum (map (fun r => (nth i r 0 - average rows i) * (nth j r 0 - average rows j)) rows) / inject_Z (lenZ rows).
