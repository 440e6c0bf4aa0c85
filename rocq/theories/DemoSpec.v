(* Vocabulary for democratic co-learning: L learners, rounds in which each may receive rows. *)
From Coq Require Import List ZArith Bool QArith Sorted.
From Verif Require Import InductSpec EnsembleSpec.
Import ListNotations.
Open Scope Z_scope.

Section DemoSpecs.
Context {X M : Type}.
Variable d : X.
Variable L : nat.
Variable fit : nat -> nat -> list X -> list Z -> M.
Variable predict : M -> list X -> list Z.
Variable lower : list Z -> list Z -> Q.       (* lower end of the accuracy interval *)
Variable middle : list Z -> list Z -> Q.      (* its middle, used as the learner's weight *)
Variables (Xl : list X) (yl : list Z) (Xu : list X).
Variable rs : tri_rounds.                     (* what every learner receives in every round *)

Definition batches (i : nat) : list batch := map (fun r => r i) rs.
Definition examples (k i : nat) : list X * list Z := training_set d Xl yl Xu (batches i) k.
Definition learner_at (k i : nat) : M := fit i k (fst (examples k i)) (snd (examples k i)).
Definition says (k i r : nat) : Z := nth r (predict (learner_at k i) Xu) 0.

(* the weight of a label for row r in round k: the weights of the learners predicting it *)
Definition label_weight (k r : nat) (l : Z) : Q :=
  total (map (fun i => middle yl (predict (learner_at k i) Xl))
             (filter (fun i => if Z.eq_dec (says k i r) l then true else false) (seq 0 L))).
(* l outweighs every other label *)
Definition wins (k r : nat) (l : Z) : Prop :=
  In l yl /\ forall l', In l' yl -> l' <> l -> (label_weight k r l' < label_weight k r l)%Q.

(* row r, not yet given to learner i, on which the others outvote it with label l *)
Definition disputed (k i r : nat) (l : Z) : Prop :=
  (r < length Xu)%nat /\ ~ In r (taken_rows (firstn k (batches i))) /\ wins k r l /\ says k i r <> l.
Definition all_disputed (k i : nat) (b : batch) : Prop :=
  StronglySorted lt (map fst b) /\ forall r l, In (r, l) b <-> disputed k i r l.

(* the estimate n * (1 - 2 e / n) ^ 2 of the value of n examples of which e are mislabelled *)
Definition worth (n e : Q) : Q := (n * (1 - 2 * (e / n)) ^ 2)%Q.
Definition mean_lower (k : nat) : Q :=
  (total (map (fun i => lower (snd (examples k i)) (predict (learner_at k i) (fst (examples k i)))) (seq 0 L))
   / inject_Z (Z.of_nat L))%Q.
Definition size (b : batch) : Q := inject_Z (Z.of_nat (length b)).
(* mislabelled examples expected so far *)
Definition noise (k i : nat) : Q :=
  total (map (fun j => ((1 - mean_lower j) * size (nth j (batches i) []))%Q) (seq 0 k)).
Definition improves (k i : nat) (b : batch) : Prop :=
  let n := inject_Z (Z.of_nat (length (snd (examples k i)))) in
  (worth n (noise k i) < worth (n + size b) (noise k i + (1 - mean_lower k) * size b))%Q.

(* Round k: every learner gets all the rows on which it is outvoted if that improves the estimate,
   and otherwise nothing. *)
Definition demo_round (k : nat) (bs : nat -> batch) : Prop := forall i, (i < L)%nat ->
  exists b, all_disputed k i b /\
    ((b <> [] /\ improves k i b /\ bs i = b) \/ ((b = [] \/ ~ improves k i b) /\ bs i = [])).

Definition demo_history (max_iter : nat) (fits : list (list (list X * list Z))) : Prop :=
  length fits = L /\
  (forall i, (i < L)%nat ->
     moves_rows_once d max_iter Xl yl Xu (batches i) (nth i fits []) (pool_after d Xu (batches i) (length rs))) /\
  (forall k, (k < length rs)%nat ->
     demo_round k (nth k rs (fun _ => [])) /\ exists i, (i < L)%nat /\ nth k rs (fun _ => []) i <> []) /\
  (length rs = max_iter \/ demo_round (length rs) (fun _ => [])).
End DemoSpecs.

(* ----- the combined prediction -----
   The learners considered are those whose weight exceeds min_confidence, or all if there is none.  A
   class with k > 0 votes from them gets their mean weight times (k + 1/2) / (k + 1). *)
Definition considered (weights : list Q) (min_confidence : Q) (i : nat) : Prop :=
  (i < length weights)%nat /\
  ((min_confidence < nth i weights 0)%Q \/ forall j, (j < length weights)%nat -> (nth j weights 0 <= min_confidence)%Q).
Definition voters (weights : list Q) (min_confidence : Q) (preds : list (list Z)) (r : nat) (c : Z) (vs : list nat) : Prop :=
  StronglySorted lt vs /\
  forall i, In i vs <-> considered weights min_confidence i /\ nth r (nth i preds []) 0 = c.
Definition class_score (weights : list Q) (min_confidence : Q) (preds : list (list Z)) (r : nat) (c : Z) (q : Q) : Prop :=
  exists vs, voters weights min_confidence preds r c vs /\
    let k := inject_Z (Z.of_nat (length vs)) in
    (vs = [] /\ q == 0 \/
     vs <> [] /\ q == total (map (fun i => nth i weights 0) vs) / k * ((k + (1 # 2)) / (k + 1)))%Q.
