(* What C104 - C107 say, in terms of the graph, the losses seen during training and the values of the data sets. *)
From Coq Require Import QArith Qminmax Qabs.
From Verif Require Import Prelude QFacts TransModel TransSpec GnnModel.
Local Open Scope Q_scope.
Local Open Scope list_scope.

(* ---- the graph *)
(* an accepted data set *)
Definition usable (d : node_data) : Prop :=
  List.length (nd_X d) = List.length (nd_y d) /\
  (forall c b, In c (nd_y d) -> (0 <= b <= c)%Z -> In b (nd_y d)) /\
  (forall e, In e (nd_edges d) -> (0 <= fst e < lenZ (nd_X d))%Z /\ (0 <= snd e < lenZ (nd_X d))%Z) /\
  (exists m, nd_train d = Some m) /\
  (forall m, nd_train d = Some m \/ nd_val d = Some m \/ nd_test d = Some m \/ nd_unlabeled d = Some m -> List.length m = List.length (nd_X d)) /\
  match nd_weight d with None => True | Some w => List.length w = List.length (nd_edges d) end.
(* the edges with their weights: 1 when no weights are given *)
Definition weighted (d : node_data) : list edge := combine (nd_edges d) (match nd_weight d with None => map (fun _ => 1) (nd_edges d) | Some w => w end).
(* the strength of the link from j to i, with the added loop *)
Definition strength (loops : bool) (E : list edge) (i j : nat) : Q := weight_from E i j + (if loops && Nat.eqb i j then 1 else 0).
Definition in_strength (loops : bool) (n : nat) (E : list edge) (i : nat) : Q := Qsum (map (strength loops E i) (seq 0 n)).
(* what node i takes from node j *)
Definition takes (rsqrt : Q -> Q) (tiny : Q) (mode : gnn_norm) (loops : bool) (n : nat) (E : list edge) (i j : nat) : Q :=
  match mode with
  | NormRw => strength loops E i j / Qmax (in_strength loops n E i) tiny
  | NormSym => strength loops E i j * (rsqrt (Qmax (in_strength loops n E j) tiny) * rsqrt (Qmax (in_strength loops n E i) tiny))
  end.
Definition same_value (f : Q -> Q) : Prop := forall x y, x == y -> f x == f y.

(* ---- propagation *)
(* a path of at most r edges from j to i *)
Inductive within (E : list edge) : nat -> nat -> nat -> Prop :=
| here r i : within E r i i
| further r j i e : In e E -> Z.of_nat i = e_dst e -> within E r j (Z.to_nat (e_src e)) -> within E (S r) j i.
(* a map of feature tables whose row i depends only on the rows within r steps of i *)
Definition local (E : list edge) (n r : nat) (f : mat -> mat) : Prop :=
  forall X X' i, List.length X = n -> List.length X' = n -> (i < n)%nat -> (forall j, (j < n)%nat -> within E r j i -> nth j X [] = nth j X' []) -> nth i (f X) [] = nth i (f X') [].
Definition in_box (n k : nat) (lo hi : nat -> Q) (F : nat -> nat -> Q) : Prop := forall i c, (i < n)%nat -> (c < k)%nat -> lo c <= F i c <= hi c.
(* one step of personalised propagation with the weights P *)
Definition ppr_step (n : nat) (P : nat -> nat -> Q) (alpha : Q) (h0 h : nat -> nat -> Q) (i c : nat) : Q :=
  (1 - alpha) * Qsum (map (fun j => P i j * h j c) (seq 0 n)) + alpha * h0 i c.
Definition apart_by (n k : nat) (d : Q) (F G : nat -> nat -> Q) : Prop := forall i c, (i < n)%nat -> (c < k)%nat -> Qabs (F i c - G i c) <= d.

(* ---- early stopping: v e is the validation loss after epoch e (from 0), None when it is NaN *)
Definition clearly_lower (a b : option Q) : Prop := exists x y, a = Some x /\ b = Some y /\ x < y - (1 # 1000000000).
(* the best epoch after epoch e, as it was kept along the way; [counts] says whether a loss can be the first best one *)
Inductive kept (counts : option Q -> Prop) (v : nat -> option Q) : nat -> option nat -> Prop :=
| kept_none : ~ counts (v 0%nat) -> kept counts v 0 None
| kept_first : counts (v 0%nat) -> kept counts v 0 (Some 0%nat)
| kept_none_still e : kept counts v e None -> ~ counts (v (S e)) -> kept counts v (S e) None
| kept_later e : kept counts v e None -> counts (v (S e)) -> kept counts v (S e) (Some (S e))
| kept_new e b : kept counts v e (Some b) -> clearly_lower (v (S e)) (v b) -> kept counts v (S e) (Some (S e))
| kept_old e b : kept counts v e (Some b) -> ~ clearly_lower (v (S e)) (v b) -> kept counts v (S e) (Some b).
(* epochs since the best one *)
Definition since (e : nat) (b : option nat) : Z := match b with Some b => (Z.of_nat e - Z.of_nat b)%Z | None => (Z.of_nat e + 1)%Z end.
(* the number of epochs: the first epoch with [patience] epochs (at least one) without a new best is the last, and max_epochs is the limit *)
Definition stops_after (counts : option Q -> Prop) (v : nat -> option Q) (patience max_epochs : Z) (n : nat) : Prop :=
  (0 < n)%nat /\ (Z.of_nat n <= max_epochs)%Z /\
  (forall e b, (S e < n)%nat -> kept counts v e b -> (since e b < Z.max 1 patience)%Z) /\
  ((Z.of_nat n = max_epochs) \/ exists b, kept counts v (n - 1) b /\ (Z.max 1 patience <= since (n - 1) b)%Z).
(* the state after e gradient steps *)
Fixpoint after {W Op G : Type} (step : W -> Op -> G -> list (nat * Z) -> W * Op * G) (rows : list (nat * Z)) (s : W * Op * G) (e : nat) : W * Op * G :=
  match e with 0%nat => s | S e => let s := after step rows s e in step (fst (fst s)) (snd (fst s)) (snd s) rows end.
Definition weights_of {W Op G : Type} (s : W * Op * G) : W := fst (fst s).
(* the rows of the nodes a mask selects, in order, with their labels *)
Definition rows_of (m : list bool) (y : list Z) (rows : list (nat * Z)) : Prop :=
  StronglySorted lt (map fst rows) /\ forall i v, In (i, v) rows <-> (i < List.length y)%nat /\ nth i m false = true /\ nth i y (-1)%Z = v.
(* the validation rows: none unless the mask is given and selects a node *)
Definition validation_rows (m : option (list bool)) (y : list Z) (o : option (list (nat * Z))) : Prop :=
  match m with
  | Some m => ((exists i, nth i m false = true) /\ exists rows, o = Some rows /\ rows_of m y rows) \/ ((forall i, nth i m false = false) /\ o = None)
  | None => o = None
  end.
(* a label the loss accepts: a class, or -100, which it skips *)
Definition accepted_label (classes v : Z) : Prop := (0 <= v < classes)%Z \/ v = (-100)%Z.
(* the labels a fit may use *)
Definition same_shown (m : list bool) (y y' : list Z) : Prop := forall i, nth i m false = true -> nth i y (-1)%Z = nth i y' (-1)%Z.

(* ---- the cache *)
(* the values found at the same places are the same: nothing was changed in place and no place was reused *)
Definition unchanged (h h' : heap) : Prop :=
  (forall i, h_masks h i = h_masks h' i) /\ (forall i, h_X h i = h_X h' i) /\ (forall i, h_y h i = h_y h' i) /\ (forall i, h_edges h i = h_edges h' i) /\ (forall i, h_weight h i = h_weight h' i).
