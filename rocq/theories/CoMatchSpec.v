(* The vocabulary in which CoMatch is stated. *)
From Coq Require Import QArith Qminmax.
From Verif Require Import Prelude QFacts DeepLossSpec DeepThreshSpec DeepEmaSpec CoMatchModel.
Local Open Scope Q_scope.

(* the last n elements *)
Definition recent {A} (n : nat) (l : list A) : list A := skipn (length l - n) l.

(* the inner product of two rows *)
Definition inner (a b : list Q) : Q := Qsum (map (fun xy => fst xy * snd xy) (combine a b)).

(* s is alpha times p plus (1 - alpha) times the average of the remembered rows, weighted by nearness; a total weight below
   1e-12 counts as 1e-12 *)
Definition recalled {A} (alpha : Q) (k : nat) (weight : A -> Q) (memory : list (A * list Q)) (p s : list Q) : Prop :=
  length s = k /\
  forall c, (c < k)%nat ->
    nth c s 0 == alpha * nth c p 0 +
      (1 - alpha) * (Qsum (map (fun m => weight (fst m) * nth c (snd m) 0) memory) / Qmax (Qsum (map (fun m => weight (fst m)) memory)) (1 # 1000000000000)).

(* the weight of the pair (i, j) in the graph of a batch: 1 for a row and itself, otherwise the inner product of the two
   rows' probabilities, 0 if it is below a positive threshold *)
Definition link (threshold : Q) (probs : list (list Q)) (i j : nat) : Q :=
  if Nat.eqb i j then 1
  else let w := inner (nth i probs []) (nth j probs []) in
       if Qle_bool threshold 0 || Qle_bool threshold w then w else 0.
(* the weights of row i's links, scaled to sum to 1 *)
Definition link_share (threshold : Q) (probs : list (list Q)) (i j : nat) : Q :=
  link threshold probs i j / Qsum (map (link threshold probs i) (seq 0 (length probs))).

(* the weights among n values f(0), ..., f(n-1); a total below 1e-12 counts as 1e-12 *)
Definition share (n : nat) (f : nat -> Q) (j : nat) : Q := f j / Qmax (Qsum (map f (seq 0 n))) (1 # 1000000000000).

(* the network's outputs for n_l labelled and n_u unlabelled rows: k classes, d features *)
Definition outputs_ok (n_l n_u k d : nat) (o : outputs) : Prop :=
  table n_l k (logits_l o) /\ table n_l d (feats_l o) /\ table n_u k (logits_w o) /\ table n_u d (feats_w o) /\
  table n_u k (logits_s0 o) /\ table n_u d (feats_s0 o) /\ table n_u k (logits_s1 o) /\ table n_u d (feats_s1 o).

(* 1 at class c *)
Definition indicator (k : nat) (c : Z) : list Q := map (fun j => if (Z.of_nat j =? c)%Z then 1 else 0) (seq 0 k).
(* what a step adds to the memory: the unlabelled rows with their (aligned) probabilities, then the labelled rows with
   their labels *)
Definition step_rows (l2 : list Q -> list Q) (k : nat) (o : outputs) (y : list Z) (probs : list (list Q)) : list (list Q * list Q) :=
  combine (map l2 (feats_w o ++ feats_l o)) (probs ++ map (indicator k) y).

(* ------------------------------------------------------------------ one step of CoMatch, given what happened before it *)
Section Step.
Variable softmax sharp log_softmax : list Q -> list Q.
Variable ce : list Q -> Z -> Q.
Variable argmax : list Q -> Z.
Variable exp log : Q -> Q.
Variable l2 : list Q -> list Q.
Variable cfg : config.
Variable k : nat.

(* a: the rows u of weak probabilities after distribution alignment; [batches]: the weak probabilities of all steps so far,
   this one included; l: the labelled probabilities of this step *)
Definition aligned_step (batches : list (list (list Q))) (l u a : list (list Q)) : Prop :=
  if dist_align cfg && negb (Nat.eqb (da_len cfg) 0) then
    Forall2 (aligned k (fun c => if dist_uniform cfg then 1 / inject_Z (Z.of_nat k) else class_mean c l)
                       (fun c => Qmean (map (class_mean c) (recent (da_len cfg) batches)))) u a
  else a = u.
(* the similarity of two rows of features *)
Definition likeness (f g : list Q) : Q := exp (inner f g / temperature cfg).
(* s: the rows a after smoothing with the memory; f: the normalised features of the rows *)
Definition smoothed_step (memory : list (list Q * list Q)) (f a s : list (list Q)) : Prop :=
  length s = length a /\
  forall r, (r < length a)%nat ->
    if Nat.eqb (length memory) 0 || Nat.ltb (length memory) (min_fill cfg) || Qle_bool 1 (smoothing cfg)
    then nth r s [] = nth r a []
    else recalled (smoothing cfg) k (likeness (nth r f [])) memory (nth r a []) (nth r s []).
(* the loss: cross entropy of the labelled rows; the average loss of the first strong view against the smoothed rows, over
   those in which some class reaches p_cutoff; the average over the rows of the cross entropy between the row's links and
   the similarities of the two strong views *)
Definition step_loss (o : outputs) (y : list Z) (s : list (list Q)) (loss : Q) : Prop :=
  let n := length s in
  exists sup unsup contrast,
    average (map (fun r => ce (nth r (logits_l o) []) (nth r y 0%Z)) (seq 0 (length y))) sup /\
    average (map (fun r => if hard_label cfg then ce (nth r (logits_s0 o) []) (argmax (nth r s []))
                           else soft_cross_entropy k (nth r s []) (log_softmax (nth r (logits_s0 o) [])))
                 (chosen n (fun r => confident (p_cutoff cfg) (nth r s [])))) unsup /\
    average (map (fun i => - Qsum (map (fun j =>
                link_share (contrast_cutoff cfg) s i j *
                log (share n (fun j => likeness (nth i (map l2 (feats_s0 o)) []) (nth j (map l2 (feats_s1 o)) [])) j + (1 # 10000000)))
              (seq 0 n))) (seq 0 n)) contrast /\
    loss == sup + lambda_u cfg * unsup + lambda_c cfg * contrast.
End Step.

(* ------------------------------------------------------------------ a fit *)
Section History.
Variable sharp l2 : list Q -> list Q.
Variable cfg : config.
Variable k : nat.
Variable net : Z -> list nat -> list nat -> outputs.
Variable y : list Z.
Variable steps : list (list nat * list nat).
(* the outputs and labels of step u, and its weak probabilities *)
Definition out_at (u : nat) : outputs := let '(il, iu) := nth u steps ([], []) in net (Z.of_nat u) il iu.
Definition labels_at (u : nat) : list Z := map (fun i => nth i y 0%Z) (fst (nth u steps ([], []))).
Definition weak_at (u : nat) : list (list Q) := map sharp (logits_w (out_at u)).
(* the memory before step t, when step u aligned its rows to a(u): the last queue_size rows added by the steps before, each
   step adding at most queue_size *)
Definition memory_at (a : nat -> list (list Q)) (t : nat) : list (list Q * list Q) :=
  recent (queue_size cfg) (concat (map (fun u => firstn (queue_size cfg) (step_rows l2 k (out_at u) (labels_at u) (a u))) (seq 0 t))).
End History.
(* the numbers that fit accepts *)
Definition numbers_ok (cfg : config) : Prop :=
  0 <= lambda_u cfg /\ 0 <= lambda_c cfg /\ 0 <= p_cutoff cfg <= 1 /\ 0 < temperature cfg /\ 0 <= contrast_cutoff cfg <= 1 /\
  0 <= smoothing cfg <= 1 /\ (min_fill cfg <= queue_size cfg)%nat.
