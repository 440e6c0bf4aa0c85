(* What C143 and C144 say: the sampled support, the views, the shares of the classes, the loss, and stopping by accuracy. *)
From Coq Require Import QArith Qminmax.
From Verif Require Import Prelude QFacts TransModel TransSpec GnnModel GnnSpec GrafnModel.
Local Open Scope Q_scope.
Local Open Scope list_scope.

(* random draws k numbers of [0, 1); choice without replacement draws k different members *)
Definition draws_ok {G} (random : G -> nat -> list Q * G) : Prop := forall g k, List.length (fst (random g k)) = k /\ forall v, In v (fst (random g k)) -> 0 <= v < 1.
Definition choice_ok {G} (choice : G -> list nat -> nat -> bool -> list nat * G) : Prop :=
  forall g idx k, NoDup idx -> (k <= List.length idx)%nat -> let s := fst (choice g idx k false) in List.length s = k /\ NoDup s /\ incl s idx.
(* i is a training node of class c *)
Definition labelled (y : list Z) (train : list bool) (c : Z) (i : nat) : Prop := (i < List.length y)%nat /\ nth i train false = true /\ nth i y (-1)%Z = c.
(* class c has m training nodes *)
Definition labelled_count (y : list Z) (train : list bool) (c : Z) (m : nat) : Prop := exists l, NoDup l /\ List.length l = m /\ forall i, In i l <-> labelled y train c i.
(* the rows of a label matrix: row t is 1 at [cls t] and 0 elsewhere *)
Definition indicates (k m : nat) (cls : nat -> nat) (L : mat) : Prop :=
  List.length L = m /\ forall t, (t < m)%nat -> (cls t < k)%nat /\ nth t L [] = map (fun c => if Nat.eqb c (cls t) then 1 else 0) (seq 0 k).
(* some of the edges, in their order *)
Inductive part {A} : list A -> list A -> Prop :=
| part_nil : part [] []
| part_keep a l l' : part l l' -> part (a :: l) (a :: l')
| part_drop a l l' : part l l' -> part l (a :: l').
(* the total weight that the supports of class c get from a row *)
Definition share (softmax unit_row : list Q -> list Q) (tau : Q) (m : nat) (cls : nat -> nat) (row : list Q) (supports : nat -> list Q) (c : nat) : Q :=
  let w := softmax (map (fun t => dot (unit_row row) (unit_row (supports t)) / tau) (seq 0 m)) in
  Qsum (map (fun t => nth t w 0) (filter (fun t => Nat.eqb (cls t) c) (seq 0 m))).
Definition mean_over {A} (l : list A) (f : A -> Q) : Q := Qsum (map f l) / inject_Z (lenZ l).

(* ---- stopping: [acc e] is the accuracy after epoch e, from 0 *)
(* b is the first epoch up to e with the highest accuracy *)
Definition first_best (acc : nat -> Q) (e b : nat) : Prop := (b <= e)%nat /\ (forall a, (a < b)%nat -> acc a < acc b) /\ (forall a, (a <= e)%nat -> acc a <= acc b).
(* n epochs: the first epoch with [patience] epochs (at least one) since the best one is the last, and max_epochs is the limit *)
Definition stops (acc : nat -> Q) (patience max_epochs : Z) (n : nat) : Prop :=
  (0 < n)%nat /\ (Z.of_nat n <= max_epochs)%Z /\
  (forall e b, (S e < n)%nat -> first_best acc e b -> (Z.of_nat e - Z.of_nat b < Z.max 1 patience)%Z) /\
  (Z.of_nat n = max_epochs \/ exists b, first_best acc (n - 1) b /\ (Z.max 1 patience <= Z.of_nat (n - 1) - Z.of_nat b)%Z).
(* the weights after each epoch, when every epoch steps on the loss of its own draws *)
Inductive run {W Op G : Type} (draws : G -> result (objective * G)) (loss : objective -> W -> Q) (step : (W -> Q) -> W -> Op -> W * Op) (w0 : W) (o0 : Op) (g0 : G) : list W -> Op -> G -> Prop :=
| run_start : run draws loss step w0 o0 g0 [] o0 g0
| run_more ws o g ob g' w' o' : run draws loss step w0 o0 g0 ws o g -> draws g = Ok (ob, g') -> step (loss ob) (last ws w0) o = (w', o') -> run draws loss step w0 o0 g0 (ws ++ [w']) o' g'.
(* the validation nodes, when there are any *)
Definition validated (val : option (list bool)) (m : list bool) : Prop := val = Some m /\ exists i, nth i m false = true.
(* the same data with other labels *)
Definition with_labels (d : node_data) (y : list Z) : node_data :=
  {| nd_X := nd_X d; nd_width := nd_width d; nd_y := y; nd_edges := nd_edges d; nd_weight := nd_weight d; nd_train := nd_train d; nd_val := nd_val d; nd_test := nd_test d; nd_unlabeled := nd_unlabeled d |}.

(* ---- the draws of an epoch *)
(* the members whose positions, counted from t, are kept *)
Inductive kept_at {A} (keep : nat -> Prop) : nat -> list A -> list A -> Prop :=
| kept_nil t : kept_at keep t [] []
| kept_yes t a l l' : keep t -> kept_at keep (S t) l l' -> kept_at keep t (a :: l) (a :: l')
| kept_no t a l l' : ~ keep t -> kept_at keep (S t) l l' -> kept_at keep t (a :: l) l'.
(* a view drawn with generator g: a column is hidden when its draw is below its rate, an edge goes when its draw is below its rate - unless all would *)
Definition drawn_view {G} (random : G -> nat -> list Q * G) (rsqrt : Q -> Q) (tiny : Q) (edge_rate feat_rate : Q) (width : nat) (X : mat) (E : list edge) (g : G) (v : view) : Prop :=
  let u := fst (random g width) in
  let u' := fst (random (if Qlt_le_dec 0 feat_rate then snd (random g width) else g) (List.length E)) in
  List.length (fst v) = List.length X /\
  (forall i c, (i < List.length X)%nat -> (c < width)%nat -> nth c (nth i (fst v) []) 0 = if Qlt_le_dec 0 feat_rate then (if Qlt_le_dec (nth c u 0) feat_rate then 0 else nth c (nth i X []) 0) else nth c (nth i X []) 0) /\
  exists E', ((edge_rate <= 0 \/ forall t, (t < List.length E)%nat -> nth t u' 0 < edge_rate) -> E' = E) /\
    (0 < edge_rate -> (exists t, (t < List.length E)%nat /\ edge_rate <= nth t u' 0) -> kept_at (fun t => edge_rate <= nth t u' 0) 0 E E') /\
    forall i j, (i < List.length X)%nat -> (j < List.length X)%nat -> weight_from (snd v) i j == takes rsqrt tiny NormSym true (List.length X) E' i j.

(* ---- the loss *)
(* the share of class c that node i gets from the supports in the representations z *)
Definition assigned (softmax unit_row : list Q -> list Q) (tau : Q) (m : nat) (cls : nat -> nat) (support : list nat) (z : mat) (i c : nat) : Q :=
  share softmax unit_row tau m cls (nth i z []) (fun t => nth (nth t support O) z []) c.
Definition listed (l : list nat) (P : nat -> Prop) : Prop := NoDup l /\ forall i, In i l <-> P i.
(* the loss over the training nodes T and the nodes I whose assignments count *)
Definition loss_formula (softmax unit_row : list Q -> list Q) (cosine : list Q -> list Q -> Q) (cross : list Q -> Z -> Q) (log_pow : Q -> Q -> Q) (tau lam_c lam_n : Q) (k m : nat) (cls : nat -> nat)
    (y : list Z) (train : list bool) (support : list nat) (strong weak strong_logits weak_logits : mat) (T I : list nat) : Q :=
  let prob := assigned softmax unit_row tau m cls support strong in
  let target := assigned softmax unit_row tau m cls support weak in
  (mean_over T (fun i => cross (nth i strong_logits []) (nth i y (-1)%Z)) + mean_over T (fun i => cross (nth i weak_logits []) (nth i y (-1)%Z))) / 2
  + lam_c * mean_over I (fun i => if nth i train false then log_pow (prob i (Z.to_nat (nth i y (-1)%Z))) 1
                                  else Qsum (map (fun c => if Qlt_le_dec (target i c) (1 # 10000) then 0 else log_pow (prob i c) (target i c)) (seq 0 k)))
  + lam_n * (2 - 2 * mean_over (seq 0 (List.length y)) (fun i => cosine (nth i strong []) (nth i weak []))).
