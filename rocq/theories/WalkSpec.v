(* What the lazy random walk and dynamic label propagation are supposed to compute. *)
From Coq Require Import QArith Qminmax Qabs.
From Verif Require Import Prelude QFacts TransModel TransSpec.
Local Open Scope Q_scope.
Local Open Scope list_scope.

(* the undirected strength between two different nodes: the mean of the two directions, nothing for self-loops *)
Definition link (E : list edge) (i j : nat) : Q := if Nat.eqb i j then 0 else (1 # 2) * (weight_from E i j + weight_from E j i).
Definition links (n : nat) (E : list edge) (i : nat) : Q := Qsum (map (link E i) (seq 0 n)).
(* some node has no positive total strength *)
Definition has_isolated (n : nat) (E : list edge) : Prop := exists i, (i < n)%nat /\ links n E i <= 0.
(* nodes joined by a chain of positive strengths *)
Inductive joined (n : nat) (E : list edge) : nat -> nat -> Prop :=
| joined_self : forall i, (i < n)%nat -> joined n E i i
| joined_step : forall i j m, (i < n)%nat -> (j < n)%nat -> 0 < link E i j -> joined n E j m -> joined n E i m.
(* no strength leaves the set *)
Definition closed_set (n : nat) (E : list edge) (C : nat -> bool) : Prop :=
  forall i j, (i < n)%nat -> (j < n)%nat -> C i = true -> C j = false -> link E i j == 0.

(* ---- the two classes and the signed labels *)
Definition exactly_two (P : Z -> Prop) (a b : Z) : Prop := (a < b)%Z /\ forall v, P v <-> v = a \/ v = b.
(* the classes shown, when they are two; otherwise the classes of the whole label vector *)
Definition the_classes (y : list Z) (mask : list bool) (a b : Z) : Prop :=
  exactly_two (shown_class y mask) a b \/
  ((~ exists a' b', exactly_two (shown_class y mask) a' b') /\ exactly_two (fun v => (0 <= v)%Z /\ In v y) a b).
Definition sign_of (a b : Z) (y : list Z) (mask : list bool) (i : nat) : Q :=
  if nth i mask false then (if (nth i y (-1) =? b)%Z then 1 else if (nth i y (-1) =? a)%Z then - (1) else 0) else 0.
(* f = s + alpha D^-1/2 W D^-1/2 f *)
Definition walk_solution (root : Q -> Q) (n : nat) (E : list edge) (alpha : Q) (s f : nat -> Q) : Prop :=
  forall i, (i < n)%nat ->
    f i == s i + alpha * Qsum (map (fun j => link E i j / (root (links n E i) * root (links n E j)) * f j) (seq 0 n)).
(* the square roots of the total strengths are exact *)
Definition exact_roots (root : Q -> Q) (n : nat) (E : list edge) : Prop :=
  forall i, (i < n)%nat -> 0 < root (links n E i) /\ root (links n E i) * root (links n E i) == links n E i.
(* the solver finds the solution of a system of n equations that has only one *)
Definition finds (solve : mat -> mat -> option mat) (n : nat) : Prop :=
  forall A B, List.length A = n -> (forall r, In r A -> List.length r = n) -> List.length B = n -> (forall r, In r B -> List.length r = 1%nat) ->
    (forall x : nat -> Q, (forall r, (r < n)%nat -> Qsum (map (fun s => entry A r s * x s) (seq 0 n)) == 0) -> forall s, (s < n)%nat -> x s == 0) ->
    solve A B <> None.
Definition valid_graph (n : Z) (ei : list (Z * Z)) (weight : option (list Q)) : Prop :=
  (0 < n)%Z /\ (forall e, In e ei -> (0 <= fst e < n)%Z /\ (0 <= snd e < n)%Z) /\
  match weight with None => True | Some l => List.length l = List.length ei end.
Definition positive_weights (weight : option (list Q)) : Prop := match weight with None => True | Some l => forall x, In x l -> 0 <= x end.

(* ---- dynamic label propagation *)
(* the probability of a step from i to j *)
Definition step_prob (n : nat) (E : list edge) (i j : nat) : Q := link E i j / links n E i.
(* the choice of np.argpartition: k different columns other than i, none of them smaller than a column left out *)
Definition picks_largest (top : nat -> nat -> list Q -> list nat) : Prop :=
  forall k i row, (i < List.length row)%nat -> (1 <= k < List.length row)%nat ->
    NoDup (top k i row) /\ List.length (top k i row) = k /\
    (forall j, In j (top k i row) -> (j < List.length row)%nat /\ j <> i) /\
    (forall j m, In j (top k i row) -> (m < List.length row)%nat -> m <> i -> ~ In m (top k i row) -> nth m row 0 <= nth j row 0).
(* each row of P keeps the k largest steps of p and scales them to sum to 1; all of them when k >= n *)
Definition sparsified (n : nat) (k : Z) (p P : nat -> nat -> Q) : Prop :=
  if (k >=? Z.of_nat n)%Z then forall i j, (i < n)%nat -> (j < n)%nat -> P i j == p i j
  else forall i, (i < n)%nat -> exists kept, NoDup kept /\ List.length kept = Z.to_nat k /\ (forall j, In j kept -> (j < n)%nat /\ j <> i) /\
         (forall j m, In j kept -> (m < n)%nat -> m <> i -> ~ In m kept -> p i m <= p i j) /\ 0 < Qsum (map (p i) kept) /\
         (forall j, In j kept -> P i j == p i j / Qsum (map (p i) kept)) /\ (forall j, (j < n)%nat -> ~ In j kept -> P i j == 0).
Definition square_sum (n : nat) (f : nat -> nat -> Q) : Q := Qsum (map (fun a => Qsum (map (f a) (seq 0 n))) (seq 0 n)).
(* the run: labels move along the current transition matrix, which is then diffused over the kept steps together with
   the similarity of the current labels *)
Definition dynamic_run (n k : nat) (P p : nat -> nat -> Q) (y : list Z) (mask : list bool) (alpha lambda : Q)
  (T : nat -> nat -> nat -> Q) (L : nat -> nat -> nat -> Q) : Prop :=
  agree n n (T O) p /\ agree n k (L O) (target y mask) /\
  forall m, agree n k (L (S m)) (fun i c => if nth i mask false then target y mask i c else Qsum (map (fun j => T m i j * L m j c) (seq 0 n))) /\
            agree n n (T (S m)) (fun i j => square_sum n (fun a b => P i a * (T m a b + alpha * sum_classes k (fun c => L m a c * L m b c)) * P j b) + (if Nat.eqb i j then lambda else 0)).
