(* Flows, cuts and reachability, and what graph min-cut is supposed to return. *)
From Coq Require Import QArith Relations.
From Verif Require Import Prelude SamplingSpec TransModel MincutModel.
Local Open Scope Z_scope.
Local Open Scope list_scope.

Definition sum_nodes (N : nat) (f : nat -> Z) : Z := sumZ (map f (seq 0 N)).
(* an integer flow: what leaves u for v enters v from u, capacities are respected, nothing is lost on the way *)
Definition is_flow (net : network) (f : nat -> nat -> Z) : Prop :=
  (forall u v, f u v = - f v u) /\
  (forall u v, (u < net_size net)%nat -> (v < net_size net)%nat -> f u v <= capacity net u v) /\
  (forall u, (u < net_size net)%nat -> u <> net_source net -> u <> net_sink net -> sum_nodes (net_size net) (f u) = 0).
Definition flow_value (net : network) (f : nat -> nat -> Z) : Z := sum_nodes (net_size net) (f (net_source net)).
Definition is_maximum_flow (net : network) (f : nat -> nat -> Z) : Prop :=
  is_flow net f /\ forall g, is_flow net g -> flow_value net g <= flow_value net f.
(* what the solver promises when it returns *)
Definition computes_maximum_flows (mf : network -> result (nat -> nat -> Z)) : Prop := forall net f, mf net = Ok f -> is_maximum_flow net f.
(* a sparse matrix stores at least its non-zero entries *)
Definition stores_nonzero (stored : nat -> (nat -> nat -> Z) -> nat -> list nat) : Prop :=
  forall N M u v, (In v (stored N M u) -> (v < N)%nat) /\ ((v < N)%nat -> M u v <> 0 -> In v (stored N M u)).
(* v can be reached from s inside 0..N-1 along positive entries *)
Definition step (N : nat) (R : nat -> nat -> Z) (u v : nat) : Prop := (u < N)%nat /\ (v < N)%nat /\ R u v > 0.
Definition reaches (N : nat) (R : nat -> nat -> Z) : nat -> nat -> Prop := clos_refl_trans nat (step N R).

(* the weight of the edges that leave the side marked true *)
Definition cut_weight (E : list edge) (weigh : Q -> Z) (side : nat -> bool) : Z :=
  sumZ (map (fun e => weigh (e_w e)) (filter (fun e => side (Z.to_nat (e_src e)) && negb (side (Z.to_nat (e_dst e)))) E)).
(* the labelled nodes of the class hi are on the marked side, those of the class lo on the other *)
Definition respects (y : list Z) (mask : list bool) (lo hi : Z) (side : nat -> bool) : Prop :=
  forall i, nth i mask false = true -> (nth i y 0 = hi -> side i = true) /\ (nth i y 0 = lo -> side i = false).
(* the integer weight of an edge: its weight times the scale, rounded to the nearest integer (ties to even), at least mc *)
Definition integer_weights (scale : Q) (mc : Z) (weigh : Q -> Z) : Prop :=
  forall w, exists r, nearest_even (w * scale)%Q r /\ weigh w = Z.max r mc.
