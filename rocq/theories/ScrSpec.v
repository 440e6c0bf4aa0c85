(* What C171 says: which rows a network takes, what it is made of and how it is trained. *)
From Coq Require Import QArith Permutation.
From Verif Require Import Prelude SupervisedModel TclfModel TclfSpec ScrModel.
Local Open Scope list_scope.
Local Notation length := List.length.

(* z is q cut towards zero *)
Definition cut_to (q : Q) (z : Z) : Prop := (0 <= q /\ inject_Z z <= q < inject_Z z + 1)%Q \/ (q < 0 /\ inject_Z z - 1 < q <= inject_Z z)%Q.
(* row i of an array of n rows: its ids cut to integers, or its image; a waveform image without channels has one *)
Definition ids_cut (l i : nat) (data : list Q) (ids : list Z) : Prop :=
  length ids = length (part_of l i data) /\ forall j, (j < length ids)%nat -> cut_to (nth j (part_of l i data) 0%Q) (nth j ids 0%Z).
Inductive row_of : kind -> raw -> nat -> row -> Prop :=
| row_ids v x n l i ids : r_shape x = [n; l] -> (i < n)%nat -> ids_cut l i (r_data x) ids -> row_of (Lstm v) x i (Tokens ids)
| row_image b k x n f t i : r_shape x = [n; f; t] -> (i < n)%nat -> row_of (Audio b k) x i (Picture 1 f t (part_of (f * t) i (r_data x)))
| row_channels b k x n c f t i : r_shape x = [n; c; f; t] -> (i < n)%nat -> row_of (Audio b k) x i (Picture c f t (part_of (c * f * t) i (r_data x))).
(* the shapes that are read, with their numbers of rows and features *)
Inductive readable : kind -> raw -> nat -> nat -> Prop :=
| readable_ids v x n l : r_shape x = [n; l] -> (0 < n)%nat -> readable (Lstm v) x n l
| readable_image b k x n f t : r_shape x = [n; f; t] -> (0 < n)%nat -> readable (Audio b k) x n (f * t)
| readable_channels b k x n c f t : r_shape x = [n; c; f; t] -> (0 < n)%nat -> readable (Audio b k) x n (f * t).
(* rows a network can score: some ids, all in the vocabulary; one channel and at least 2^blocks frequencies and times *)
Inductive scorable : kind -> row -> Prop :=
| scorable_ids v ids : ids <> [] -> (forall i, In i ids -> (0 <= i < Z.of_nat v)%Z) -> scorable (Lstm v) (Tokens ids)
| scorable_image b k f t l : (2 ^ k <= f)%nat -> (2 ^ k <= t)%nat -> scorable (Audio b k) (Picture 1 f t l).
(* the device of a fit *)
Definition on_device (cuda : bool) (jobs : option Z) (x y : raw) (d : Z) : Prop :=
  (r_tensor x = true -> d = r_dev x) /\ (r_tensor y = true -> d = r_dev y) /\
  (r_tensor x = false -> r_tensor y = false -> (d = 1%Z /\ cuda = true /\ jobs <> Some 0%Z) \/ (d = 0%Z /\ (cuda = false \/ jobs = Some 0%Z))).

Section Training.
Context {W Op G R : Type}.
Variable order : nat -> option R * G -> list nat * (option R * G).
Variable step : list (row * nat) -> W * Op * G -> W * Op * G.
Definition entry_of (k : kind) (x : raw) (y classes : list Z) (i : nat) (e : row * nat) : Prop :=
  row_of k x i (fst e) /\ (snd e < length classes)%nat /\ nth (snd e) classes 0%Z = nth i y 0%Z.
Inductive stepped (k : kind) (x : raw) (y classes : list Z) : list (list nat) -> W * Op * G -> W * Op * G -> Prop :=
| stepped_end s : stepped k x y classes [] s s
| stepped_batch b bs E s s' : Forall2 (entry_of k x y classes) b E -> stepped k x y classes bs (step E s) s' -> stepped k x y classes (b :: bs) s s'.
Inductive trained (k : kind) (size : nat) (x : raw) (y classes : list Z) : nat -> option R -> W * Op * G -> W * Op * G -> Prop :=
| trained_end r s : trained k size x y classes 0 r s s
| trained_epoch n r w o g bs r' g' s s' : epoch_split size (length y) bs -> order (length y) (r, g) = (concat bs, (r', g')) ->
    stepped k x y classes bs (w, o, g') s -> trained k size x y classes n r' s s' -> trained k size x y classes (S n) r (w, o, g) s'.
Definition order_ok : Prop := forall n s, Permutation (fst (order n s)) (seq 0 n).
End Training.
