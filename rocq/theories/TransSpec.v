(* What the transductive methods are supposed to compute, entry by entry. *)
From Coq Require Import QArith Qminmax Qabs.
From Verif Require Import Prelude QFacts TransModel.
Local Open Scope Q_scope.
Local Open Scope list_scope.

(* the label of a node is class c, and it is shown *)
Definition target (y : list Z) (mask : list bool) (i c : nat) : Q :=
  if nth i mask false && (nth i y (-1) =? Z.of_nat c)%Z then 1 else 0.
Definition sum_classes (k : nat) (f : nat -> Q) : Q := Qsum (map f (seq 0 k)).
(* the weighted sum of a column over the edges arriving at a node *)
Definition arriving (E : list edge) (w : edge -> Q) (F : nat -> nat -> Q) (i c : nat) : Q :=
  Qsum (map (fun e => w e * F (Z.to_nat (e_src e)) c) (filter (fun e => (e_dst e =? Z.of_nat i)%Z) E)).
(* a row, divided by its sum when it is positive *)
Definition row_scaled (rows : bool) (k : nat) (G : nat -> nat -> Q) (i c : nat) : Q :=
  if rows then G i c / (if Qle_bool (sum_classes k (G i)) 0 then 1 else sum_classes k (G i)) else G i c.
(* one round of label propagation: diffuse, put the labels back, scale the rows *)
Definition lp_round (E : list edge) (w : edge -> Q) (mask : list bool) (y : list Z) (k : nat) (rows : bool) (F : nat -> nat -> Q) : nat -> nat -> Q :=
  row_scaled rows k (fun i c => if nth i mask false then target y mask i c else arriving E w F i c).
(* one round of label spreading: F <- a S F + (1 - a) Y *)
Definition ls_round (E : list edge) (w : edge -> Q) (mask : list bool) (y : list Z) (k : nat) (rows : bool) (a : Q) (F : nat -> nat -> Q) : nat -> nat -> Q :=
  row_scaled rows k (fun i c => a * arriving E w F i c + (1 - a) * target y mask i c).

(* ---- the graph, its weights and the classes, said without the program's own helpers *)
(* the edges of a well-formed graph on n nodes, each with its weight (1 when no weights are given) *)
Definition graph_edges (n : Z) (ei : list (Z * Z)) (weight : option (list Q)) (E : list edge) : Prop :=
  (0 < n)%Z /\ List.length E = List.length ei /\ (forall e, In e E -> (0 <= e_src e < n)%Z /\ (0 <= e_dst e < n)%Z) /\
  (forall m e, nth_error E m = Some e -> nth_error ei m = Some (e_src e, e_dst e) /\
     match weight with None => e_w e = 1 | Some l => List.length l = List.length ei /\ nth_error l m = Some (e_w e) end).
(* the total weight arriving at a node *)
Definition total_arriving (E : list edge) (i : Z) : Q := Qsum (map e_w (filter (fun e => (e_dst e =? i)%Z) E)).
(* the share of an edge: of what arrives at its target, or of the geometric mean over both ends, or its plain weight *)
Definition edge_share (root : Q -> Q) (eps : Q) (mode : norm_mode) (E : list edge) (e : edge) : Q :=
  match mode with
  | Rw => e_w e / Qmax (total_arriving E (e_dst e)) eps
  | Sym => e_w e / root (Qmax (total_arriving E (e_src e)) eps * Qmax (total_arriving E (e_dst e)) eps)
  | NoNorm => e_w e
  end.
(* the classes shown by the mask *)
Definition shown_class (y : list Z) (mask : list bool) (v : Z) : Prop := (0 <= v)%Z /\ exists i, nth i mask false = true /\ nth i y (-1)%Z = v.
(* k is the number of different classes shown, or of all classes when none is shown, and at least 1 *)
Definition class_count (y : list Z) (mask : list bool) (k : nat) : Prop :=
  exists l, NoDup l /\ k = Nat.max 1 (List.length l) /\
    (((exists v, shown_class y mask v) /\ forall v, In v l <-> shown_class y mask v) \/
     ((~ exists v, shown_class y mask v) /\ forall v, In v l <-> (0 <= v)%Z /\ In v y)).
(* k is one more than the largest class, and at least 1 *)
Definition class_range (y : list Z) (k : nat) : Prop :=
  (1 <= k)%nat /\ (forall v, In v y -> (v < Z.of_nat k)%Z) /\ (k = 1%nat \/ In (Z.of_nat k - 1)%Z y).

(* two score tables agree on n nodes and k classes *)
Definition agree (n k : nat) (F G : nat -> nat -> Q) : Prop := forall i c, (i < n)%nat -> (c < k)%nat -> F i c == G i c.
(* r is the largest change of an entry *)
Definition largest_change (n k : nat) (G F : nat -> nat -> Q) (r : Q) : Prop :=
  (forall i c, (i < n)%nat -> (c < k)%nat -> Qabs (G i c - F i c) <= r) /\
  (exists i c, (i < n)%nat /\ (c < k)%nat /\ r == Qabs (G i c - F i c)).
(* the result of iterating [round] from [F0] until the largest change is at most tol, at most max_iter times *)
Definition stopped_iteration (n k : nat) (round : (nat -> nat -> Q) -> nat -> nat -> Q) (F0 : nat -> nat -> Q) (tol : Q) (max_iter : Z) (d : diffusion) : Prop :=
  exists Fs : nat -> nat -> nat -> Q, agree n k (Fs O) F0 /\ (forall m, agree n k (Fs (S m)) (round (Fs m))) /\
    match d_residual d with
    | None => (max_iter <= 0)%Z /\ d_iter d = max_iter /\ agree n k (entry (d_F d)) (Fs O)
    | Some r => (1 <= d_iter d <= max_iter)%Z /\
        let m := Z.to_nat (d_iter d) in
        agree n k (entry (d_F d)) (Fs m) /\
        largest_change n k (Fs m) (Fs (m - 1)%nat) r /\
        (forall j r', (1 <= j < m)%nat -> largest_change n k (Fs j) (Fs (j - 1)%nat) r' -> tol < r') /\
        (r <= tol \/ d_iter d = max_iter)
    end.
(* a labelled node has a class *)
Definition has_label (y : list Z) (mask : list bool) (i : nat) : Prop := nth i mask false = true /\ (0 <= nth i y (-1))%Z.

(* ---- linear systems *)
(* the solver returns the solution of a square system, and only if there is exactly one *)
Definition solves (solve : mat -> mat -> option mat) : Prop :=
  forall A B X m k, List.length A = m -> (forall r, In r A -> List.length r = m) -> List.length B = m -> (forall r, In r B -> List.length r = k) ->
    solve A B = Some X ->
    List.length X = m /\ (forall r, In r X -> List.length r = k) /\
    (forall r c, (r < m)%nat -> (c < k)%nat -> Qsum (map (fun s => entry A r s * entry X s c) (seq 0 m)) == entry B r c) /\
    (forall x : nat -> Q, (forall r, (r < m)%nat -> Qsum (map (fun s => entry A r s * x s) (seq 0 m)) == 0) -> forall s, (s < m)%nat -> x s == 0).
(* the weight of the edges from j to i *)
Definition weight_from (E : list edge) (i j : nat) : Q :=
  Qsum (map e_w (filter (fun e => (e_dst e =? Z.of_nat i)%Z && (e_src e =? Z.of_nat j)%Z) E)).
Definition symmetric (E : list edge) : Prop := forall i j, weight_from E i j == weight_from E j i.

(* ---- linear operators on vectors of length m *)
Definition same_vec (x y : vec) : Prop := List.length x = List.length y /\ forall i, nth i x 0 == nth i y 0.
Definition linear (m : nat) (A : vec -> vec) : Prop :=
  (forall x, List.length x = m -> List.length (A x) = m) /\
  (forall x p a, List.length x = m -> List.length p = m -> same_vec (A (vadd x (vscale a p))) (vadd (A x) (vscale a (A p)))).
(* the squared length of the true residual *)
Definition residual2 (A : vec -> vec) (b x : vec) : Q := dot (vsub b (A x)) (vsub b (A x)).
(* symmetric and positive definite *)
Definition positive_definite (m : nat) (A : vec -> vec) : Prop :=
  (forall x y, List.length x = m -> List.length y = m -> dot x (A y) == dot (A x) y) /\
  (forall x, List.length x = m -> (exists i, ~ nth i x 0 == 0) -> 0 < dot x (A x)).
