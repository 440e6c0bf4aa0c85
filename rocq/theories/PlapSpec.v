(* What p-Laplace learning is supposed to compute. *)
From Coq Require Import QArith Qminmax Qabs.
From Verif Require Import Prelude QFacts TransModel TransSpec PoissonSpec.
Local Open Scope Q_scope.
Local Open Scope list_scope.

(* the functions of numpy *)
Definition power_ok (power : Q -> Q -> Q) : Prop :=
  (forall e x y, x == y -> power e x == power e y) /\ (forall e x, 0 < e -> 0 <= x -> 0 <= power e x).
Definition exp_ok (ex : Q -> Q) : Prop :=
  ex 0 == 1 /\ (forall x, 0 < ex x) /\ (forall x y, x < y -> ex x < ex y) /\ (forall x y, x == y -> ex x == ex y).

Definition unlabelled (n : nat) (mask : list bool) : list nat := filter (fun i => negb (nth i mask false)) (seq 0 n).

Section Scores.
Variables (n : nat) (mask : list bool).
Variable W : nat -> nat -> Q.              (* W i j: the strength of the connection from j to i *)
Variables (eps cg_tol tol p : Q).
Variable power : Q -> Q -> Q.
(* a score at every node *)
Definition potential := nat -> Q.
(* what leaves node i when the connections are scaled by s; eps ties the score to 0 *)
Definition outflow (s : nat -> nat -> Q) (v : potential) (i : nat) : Q :=
  over_nodes n (fun j => W i j * s i j * (v i - v j)) + eps * v i.
(* the squared length of the outflow over the unlabelled nodes: 0 for a solution *)
Definition imbalance (s : nat -> nat -> Q) (v : potential) : Q :=
  Qsum (map (fun i => outflow s v i * outflow s v i) (unlabelled n mask)).
Definition plain (i j : nat) : Q := 1.
(* the scaling of the p-Laplacian at v *)
Definition gradient (v : potential) (i j : nat) : Q := power (p - 2) (Qabs (v i - v j)).
(* one Newton round: the solution of the scaled problem, mixed with the present scores *)
Definition newton_round (v v' : potential) : Prop :=
  exists s, (forall i, (i < n)%nat -> nth i mask false = true -> s i == v i) /\
    imbalance (gradient v) s <= cg_tol * cg_tol /\
    forall i, (i < n)%nat -> v' i == (p - 2) / (p - 1) * v i + 1 / (p - 1) * s i.
Definition change (v v' : potential) (r : Q) : Prop := largest_of n (fun i => Qabs (v' i - v i)) r.
(* newton_run f v r0 k r w: at most f rounds from v, stopping after the first that changes nothing by more than tol, took k
   rounds and ended at w; r is the largest change of the last round, r0 what is reported when there is none *)
Inductive newton_run : nat -> potential -> Q -> nat -> Q -> potential -> Prop :=
| run_out v r0 : newton_run 0 v r0 0 r0 v
| run_stop f v r0 v' r : newton_round v v' -> change v v' r -> r <= tol -> newton_run (S f) v r0 1 r v'
| run_more f v r0 v' r k r' w : newton_round v v' -> change v v' r -> tol < r -> newton_run f v' r k r' w -> newton_run (S f) v r0 (S k) r' w.
(* the scores of one class: w comes from the plain problem by Newton's method, unless p is 2 *)
Definition learned (root : Q -> Q) (max_iter : nat) (label : potential) (rounds : nat) (residual : Q) (w : potential) : Prop :=
  exists v r0, (forall i, (i < n)%nat -> nth i mask false = true -> v i == label i) /\
    imbalance plain v <= cg_tol * cg_tol /\ r0 == root (imbalance plain v) /\
    ((p <= 2 /\ rounds = O /\ residual = r0 /\ w = v) \/ (2 < p /\ newton_run max_iter v r0 rounds residual w)).
(* the nodes from which labels can be felt *)
Inductive reached : nat -> Prop :=
| reached_label i : nth i mask false = true -> reached i
| reached_step i j : (j < n)%nat -> ~ W i j == 0 -> reached j -> reached i.
End Scores.

(* a row of probabilities follows a row of scores: positive, adding up to 1, and in the same order *)
Definition follows (k : nat) (prob score : nat -> Q) : Prop :=
  (forall c, (c < k)%nat -> 0 < prob c) /\ sum_classes k prob == 1 /\
  (forall c d, (c < k)%nat -> (d < k)%nat -> (prob c < prob d <-> score c < score d)).

(* every class below k is the label of a labelled node *)
Definition all_shown (y : list Z) (mask : list bool) (k : nat) : Prop :=
  forall c, (c < k)%nat -> exists i, nth i mask false = true /\ nth i y (-1)%Z = Z.of_nat c.
(* an edge leads from a labelled node to an unlabelled one; either direction when symmetrised *)
Definition crossing (sym : bool) (ei : list (Z * Z)) (mask : list bool) : Prop :=
  exists a b, In (a, b) ei /\ ((nth (Z.to_nat a) mask false = true /\ nth (Z.to_nat b) mask false = false) \/
                               (sym = true /\ nth (Z.to_nat a) mask false = false /\ nth (Z.to_nat b) mask false = true)).
