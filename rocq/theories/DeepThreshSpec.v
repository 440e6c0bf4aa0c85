(* The vocabulary in which the adaptive thresholds are stated. *)
From Coq Require Import QArith Qminmax.
From Verif Require Import Prelude QFacts DeepLossSpec.
Local Open Scope Q_scope.

(* FlexMatch: the class that was last chosen for row i of the pool; -1 if none ever was.  A row (i, p) of the history
   chooses class [cls p] if [sure p]. *)
Fixpoint last_choice (cls : list Q -> Z) (sure : list Q -> bool) (history : list (Z * list Q)) (i : Z) : Z :=
  match history with
  | [] => (-1)%Z
  | (j, p) :: later =>
      let l := last_choice cls sure later i in
      if (l =? -1)%Z then (if (j =? i)%Z && sure p then cls p else (-1)%Z) else l
  end.
(* how many rows of a pool of size n have choice c *)
Definition chosen_for (n : Z) (choice : Z -> Z) (c : Z) : Z := countZ c (map choice (arange n)).
(* the number for class c relative to the greatest one; the rows without a choice compete when warmup is on *)
Definition learning_share (warmup : bool) (n : Z) (n_classes : nat) (choice : Z -> Z) (c : Z) : Q :=
  let rivals := (if warmup then [(-1)%Z] else []) ++ map Z.of_nat (seq 0 n_classes) in
  inject_Z (chosen_for n choice c) / inject_Z (fold_right Z.max 1%Z (map (chosen_for n choice) rivals)).

(* a batch of rows with k classes whose indices are distinct and inside the pool *)
Definition pool_batch (n : Z) (k : nat) (b : list (Z * list Q)) : Prop :=
  NoDup (map fst b) /\ forall i p, In (i, p) b -> (0 <= i < n)%Z /\ length p = k.

(* quantile: between two of the values *)
Definition between_ok (q : list Q -> Q) : Prop := forall l, l <> [] -> exists a b, In a l /\ In b l /\ a <= q l <= b.
(* a batch of distributions over k classes *)
Definition prob_batch (k : nat) (b : list (list Q)) : Prop := b <> [] /\ forall p, In p b -> length p = k /\ distribution p.

(* sorting in descending order *)
Definition desc_ok (sort : list Q -> list Q) : Prop :=
  forall l, Permutation.Permutation (sort l) l /\ forall i j, (i <= j < length l)%nat -> nth j (sort l) 0 <= nth i (sort l) 0.

(* an exponential moving average that starts at x0; [g] is applied after each step *)
Definition running (g : Q -> Q) (m x0 : Q) (values : list Q) : Q := fold_left (fun a x => g (m * a + (1 - m) * x)) values x0.
(* the average probability of class c in a batch, the share of the rows predicted as class c, and the average of the
   greatest probabilities *)
Definition class_mean (c : nat) (b : list (list Q)) : Q := Qmean (map (fun p => nth c p 0) b).
Definition class_share (cls : list Q -> Z) (c : nat) (b : list (list Q)) : Q :=
  inject_Z (lenZ (filter (fun p => (cls p =? Z.of_nat c)%Z) b)) / inject_Z (lenZ b).
Definition top (p : list Q) : Q := fold_left Qmax (tl p) (hd 0 p).
(* kept between 0 and 0.95 *)
Definition at_most_95 (x : Q) : Q := Qmin (Qmax x 0) (95 # 100).
(* f(c) relative to the greatest of f(0), ..., f(k-1), which counts as at least 1e-12 *)
Definition relative (k : nat) (f : nat -> Q) (c : Z) : Q := f (Z.to_nat c) / fold_right Qmax (1 # 1000000000000) (map f (seq 0 k)).
(* FreeMatch after some batches: the average probability of a class, the share of its predictions, the overall confidence *)
Definition free_class (k : nat) (m : Q) (batches : list (list (list Q))) (c : nat) : Q :=
  running (fun x => x) m (1 / inject_Z (Z.of_nat k)) (map (class_mean c) batches).
Definition free_share (cls : list Q -> Z) (k : nat) (m : Q) (batches : list (list (list Q))) (c : nat) : Q :=
  running (fun x => x) m (1 / inject_Z (Z.of_nat k)) (map (class_share cls c) batches).
Definition free_confidence (quantile : option (list Q -> Q)) (clip : bool) (k : nat) (m : Q) (batches : list (list (list Q))) : Q :=
  running (if clip then at_most_95 else fun x => x) m (1 / inject_Z (Z.of_nat k))
    (map (fun b => match quantile with Some q => q (map top b) | None => Qmean (map top b) end) batches).

(* AdaMatch and SoftMatch: the running averages of the predicted and of the target class probabilities *)
Definition predicted_class (k : nat) (m : Q) (h : list (list (list Q) * list (list Q))) (c : nat) : Q :=
  running (fun x => x) m (1 / inject_Z (Z.of_nat k)) (map (fun b => class_mean c (fst b)) h).
Definition target_class (move : bool) (k : nat) (m : Q) (h : list (list (list Q) * list (list Q))) (c : nat) : Q :=
  if move then running (fun x => x) m (1 / inject_Z (Z.of_nat k)) (map (fun b => class_mean c (snd b)) h) else 1 / inject_Z (Z.of_nat k).
(* a is p with class c scaled by target(c) / predicted(c), and divided by the sum *)
Definition aligned (k : nat) (target predicted : nat -> Q) (p a : list Q) : Prop :=
  length a = k /\
  let scaled c := nth c p 0 * (target c / Qmax (predicted c) (1 # 1000000)) in
  forall c, (c < k)%nat -> nth c a 0 * Qmax (Qsum (map scaled (seq 0 k))) (1 # 1000000000000) == scaled c.
