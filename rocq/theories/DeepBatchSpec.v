(* What the deep methods' batching is expected to do, without reference to how it is computed. *)
From Coq Require Import Permutation QArith.
From Verif Require Import Prelude DeepBatchModel.
Local Open Scope Z_scope.

(* randperm(n) is a permutation of 0..n-1, whatever the generator's state *)
Definition gen_ok {St} (G : Gen St) : Prop := forall s n, Permutation (fst (g_perm G s n)) (seq 0 n).

(* k batches of at most b rows are just enough for n rows *)
Definition just_enough (n b k : Z) : Prop := (k - 1) * b < n <= k * b.

(* a batch of distinct rows of a table with n rows *)
Definition proper_batch (n : nat) (b : Z) (batch : list nat) : Prop :=
  batch <> [] /\ lenZ batch <= b /\ NoDup batch /\ (forall i, In i batch -> (i < n)%nat).
(* how often row i is used *)
Definition visits (i : nat) (batches : list (list nat)) : Z := Z.of_nat (count_occ Nat.eq_dec (concat batches) i).

(* use is even: with k batches per pass, [steps] batches use every row steps/k times or once more *)
Definition even_use (n : nat) (k steps : Z) (batches : list (list nat)) : Prop :=
  forall i, (i < n)%nat -> steps / k <= visits i batches <= steps / k + 1.

(* the pairs (row, label) of a batch *)
Definition pairs {X} (o : list X * list Z) : list (X * Z) := combine (fst o) (snd o).

(* a model that treats the rows of a batch one by one when it is not training *)
Definition row_wise {X R} (call : bool -> list X -> option (list R)) (f : X -> R) : Prop :=
  forall batch, call false batch = Some (map f batch).

(* an edge of g with its weight (1 when the graph has no weights) *)
Definition weighted_edge {X} (g : graph X) (a b : nat) (w : Q) : Prop :=
  exists k, nth_error (gedges g) k = Some (a, b) /\
            match gweight g with Some ws => nth_error ws k = Some w | None => w = 1%Q end.
Definition graph_ok {X} (g : graph X) : Prop :=
  (forall a b, In (a, b) (gedges g) -> (a < length (gx g))%nat /\ (b < length (gx g))%nat) /\
  match gweight g with Some ws => length ws = length (gedges g) | None => True end.
(* every graph has edge weights, or none has *)
Definition all_weighted {X} (gs : list (graph X)) : Prop := Forall (fun g => gweight g <> None) gs.
Definition none_weighted {X} (gs : list (graph X)) : Prop := Forall (fun g => gweight g = None) gs.
