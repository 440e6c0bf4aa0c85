(* Shared vocabulary of the model: exceptions as values and a few list functions
   that stand for numpy primitives.  No proofs here, see ListFacts.v. *)
From Coq Require Export List ZArith Lia Bool Permutation Sorted.
Export ListNotations.
#[global] Open Scope Z_scope.

(* Python exceptions raised by the modelled code, as values. *)
Inductive exn :=
| ValueError | TypeError | KeyError | IndexError | RuntimeError
| FileNotFoundError | FileExistsError | JSONDecodeError | OverflowError
| SamplingValidationError | ManifestError | GraphValidationError | CacheError
| TransductiveValidationError | InductiveValidationError | OptionalDependencyError
| HpoError | ViewsError | DatasetNotCachedError | OutOfFuel
| PreprocessError | DataAugmentationError | SupervisedError | BenchError | NotFittedError
| UnknownDatasetError | UnknownBackendError | StopIteration | AttributeError | UnboundLocalError.

Inductive result (A : Type) :=
| Ok (a : A)
| Err (e : exn).
Arguments Ok {A} a.
Arguments Err {A} e.

Definition bind {A B} (r : result A) (f : A -> result B) : result B :=
  match r with Ok a => f a | Err e => Err e end.
Notation "'do' x <- r ; k" := (bind r (fun x => k))
  (at level 200, x name, r at level 100, k at level 200).
Notation "'do' ' p <- r ; k" := (bind r (fun x => match x with p => k end))
  (at level 200, p pattern, r at level 100, k at level 200).

(* np.sort on an integer array: insertion sort (numpy's algorithm is not modelled, the result of
   sorting integers is unique). *)
Fixpoint insertZ (x : Z) (l : list Z) : list Z :=
  match l with
  | [] => [x]
  | y :: r => if x <=? y then x :: l else y :: insertZ x r
  end.
Definition sortZ (l : list Z) : list Z := fold_right insertZ [] l.

(* np.unique on an integer array: ascending, without repetition. *)
Fixpoint dedup_sorted (l : list Z) : list Z :=
  match l with
  | x :: ((y :: _) as r) => if x =? y then dedup_sorted r else x :: dedup_sorted r
  | _ => l
  end.
Definition uniqueZ (l : list Z) : list Z := dedup_sorted (sortZ l).

Definition memZ (x : Z) (l : list Z) : bool := existsb (Z.eqb x) l.

(* number of occurrences of x *)
Definition countZ (x : Z) (l : list Z) : Z := Z.of_nat (count_occ Z.eq_dec l x).

Fixpoint sumZ (l : list Z) : Z := match l with [] => 0 | x :: r => x + sumZ r end.

Definition lenZ {A} (l : list A) : Z := Z.of_nat (length l).

(* a[i] = f(a[i]) on a list, no effect when i is out of range (numpy would raise; all uses are in
   range and proved so) *)
Fixpoint update {A} (l : list A) (i : nat) (f : A -> A) : list A :=
  match l, i with
  | [], _ => []
  | x :: r, O => f x :: r
  | x :: r, S j => x :: update r j f
  end.

(* np.setdiff1d(a, b): ascending unique values of a that are not in b *)
Definition setdiff1d (a b : list Z) : list Z :=
  filter (fun x => negb (memZ x b)) (uniqueZ a).
(* np.intersect1d(a, b).size != 0 *)
Definition intersects (a b : list Z) : bool := existsb (fun x => memZ x b) a.
(* np.unique(a).size != a.size *)
Definition has_dup (a : list Z) : bool := negb (Nat.eqb (length (uniqueZ a)) (length a)).

(* np.arange(n) *)
Definition arange (n : Z) : list Z := map Z.of_nat (seq 0 (Z.to_nat n)).

Definition clampZ (lo hi x : Z) : Z := Z.max lo (Z.min hi x).
