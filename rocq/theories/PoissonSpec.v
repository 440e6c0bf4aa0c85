(* What Poisson learning is supposed to compute. *)
From Coq Require Import QArith Qminmax Qabs.
From Verif Require Import Prelude QFacts TransModel TransSpec PoissonModel.
Local Open Scope Q_scope.
Local Open Scope list_scope.

Definition over_nodes (n : nat) (f : nat -> Q) : Q := Qsum (map f (seq 0 n)).
(* the labelled nodes, and the share of class c among them *)
Definition labelled_nodes (n : nat) (mask : list bool) : list nat := filter (fun i => nth i mask false) (seq 0 n).
Definition class_share (n : nat) (y : list Z) (mask : list bool) (c : nat) : Q :=
  Qsum (map (fun i => target y mask i c) (labelled_nodes n mask)) / inject_Z (lenZ (labelled_nodes n mask)).
(* the source of class c: centred on the labelled nodes, or on all nodes *)
Definition source (center : bool) (n : nat) (y : list Z) (mask : list bool) (i c : nat) : Q :=
  if center then (if nth i mask false then target y mask i c - class_share n y mask c else 0)
  else target y mask i c - over_nodes n (fun j => target y mask j c) / inject_Z (Z.of_nat n).
(* (L + eps I + (1/n) 1 1^T) x, with L = I - S for the normalised weights S *)
Definition poisson_op (root : Q -> Q) (tiny : Q) (kind : norm_mode) (eps : Q) (n : nat) (E : list edge) (x : nat -> Q) (i : nat) : Q :=
  (x i - arriving E (edge_share root tiny kind E) (fun j _ => x j) i 0) + eps * x i + over_nodes n x / inject_Z (Z.of_nat n).
(* the squared length of what the equations of one class are missed by *)
Definition missed (n : nat) (op : (nat -> Q) -> nat -> Q) (b x : nat -> Q) : Q :=
  over_nodes n (fun i => (b i - op x i) * (b i - op x i)).
(* r is the largest value of f below k *)
Definition largest_of (k : nat) (f : nat -> Q) (r : Q) : Prop :=
  (forall c, (c < k)%nat -> f c <= r) /\ exists c, (c < k)%nat /\ r == f c.
(* the number of different values among the labels shown *)
Definition shown_values (y : list Z) (mask : list bool) (k : nat) : Prop :=
  exists l, NoDup l /\ List.length l = k /\ forall v, In v l <-> exists i, (i < List.length y)%nat /\ nth i mask false = true /\ nth i y (-1)%Z = v.
(* the square roots of the products of total weights are exact *)
Definition exact_products (root : Q -> Q) (tiny : Q) (n : nat) (E : list edge) : Prop :=
  forall i j, (i < n)%nat -> (j < n)%nat ->
    let d := Qmax (total_arriving E (Z.of_nat i)) tiny * Qmax (total_arriving E (Z.of_nat j)) tiny in 0 < root d /\ root d * root d == d.

(* ---- Poisson MBO *)
(* the strength between two nodes: both directions when symmetrised, no self-loops when the diagonal is cleared *)
Definition mbo_weight (symmetrize zero_diagonal : bool) (E : list edge) (i j : nat) : Q :=
  if zero_diagonal && Nat.eqb i j then 0 else weight_from E i j + (if symmetrize then weight_from E j i else 0).
Section MboSpec.
Variables (n k : nat) (strength : nat -> nat -> Q).
Definition total (i : nat) : Q := over_nodes n (strength i).
(* how much a score exceeds those of the neighbours *)
Definition excess (U : nat -> nat -> Q) (i c : nat) : Q := over_nodes n (fun j => strength i j * (U i c - U j c)).
Definition poisson_round (src U : nat -> nat -> Q) (i c : nat) : Q :=
  if Qle_bool (total i) 0 then U i c else U i c + (src i c - excess U i c) / total i.
Definition inner_round (src : nat -> nat -> Q) (dt mu : Q) (U : nat -> nat -> Q) (i c : nat) : Q := U i c - dt * (excess U i c - mu * src i c).
(* w picks a largest score of every node *)
Definition winners (X : nat -> nat -> Q) (w : nat -> nat) : Prop := forall i, (i < n)%nat -> (w i < k)%nat /\ forall c, (c < k)%nat -> X i c <= X i (w i).
Definition won (w : nat -> nat) (c : nat) : Q := over_nodes n (fun i => if Nat.eqb (w i) c then 1 else 0) / inject_Z (Z.of_nat n).
(* the class weights: raised where too few nodes are won, kept between smin and smax *)
Definition volume_run (X : nat -> nat -> Q) (prior : nat -> Q) (dtau smin smax : Q) (s : nat -> nat -> Q) : Prop :=
  (forall c, (c < k)%nat -> s O c == 1) /\
  forall m, exists w, winners (fun i c => X i c * s m c) w /\
    forall c, (c < k)%nat -> s (S m) c == Qmin (Qmax (s m c + dtau * (prior c - won w c)) smin) smax.
(* one outer round: inner rounds, class weights, then every node goes to its class; r is the largest change of the last inner round *)
Definition outer_round (src : nat -> nat -> Q) (prior : nat -> Q) (dt mu dtau smin smax : Q) (inner volume : nat) (U V : nat -> nat -> Q) (r : Q) : Prop :=
  exists X s w, agree n k (X O) U /\ (forall m, agree n k (X (S m)) (inner_round src dt mu (X m))) /\
    volume_run (X inner) prior dtau smin smax s /\ winners (fun i c => X inner i c * s volume c) w /\
    agree n k V (fun i c => if Nat.eqb (w i) c then 1 else 0) /\
    ((0 < inner)%nat -> largest_change n k (X inner) (X (inner - 1)%nat) r).
Definition mbo_rounds (src : nat -> nat -> Q) (prior share : nat -> Q) (dt mu dtau smin smax : Q) (T inner volume : nat)
  (P O : nat -> nat -> nat -> Q) (r : nat -> Q) : Prop :=
  agree n k (P 0%nat) (fun _ _ => 0) /\ (forall m, agree n k (P (S m)) (poisson_round src (P m))) /\
  agree n k (O 0%nat) (fun i c => P T i c * (prior c / share c)) /\
  forall m, outer_round src prior dt mu dtau smin smax inner volume (O m) (O (S m)) (r (S m)).
End MboSpec.
(* the class proportions aimed at *)
Definition aimed (n k : nat) (y : list Z) (mask : list bool) (given : option (list Q)) (how : b_strategy) (c : nat) : Q :=
  match given with
  | Some b => nth c b 0 / Qsum b
  | None => match how with
            | Uniform => 1 / inject_Z (Z.of_nat k)
            | Labeled => class_share n y mask c
            | TrueLabels => inject_Z (countZ (Z.of_nat c) y) / inject_Z (lenZ (filter (fun v => (0 <=? v)%Z) y))
            end
  end.
