(* The vocabulary in which Meta Pseudo Labels, Deep Co-Training, the Pi-Model and VAT are stated. *)
From Coq Require Import QArith Qminmax.
From Verif Require Import Prelude QFacts DeepBatchSpec DeepLossSpec DeepThreshSpec DeepEmaSpec DeepPairModel.
Local Open Scope Q_scope.

(* the average over the rows of a batch of a quantity of row r *)
Definition row_average (n : nat) (f : nat -> Q) (v : Q) : Prop := average (map f (seq 0 n)) v.
(* the labels of a batch of rows *)
Definition label_of (y : list Z) (il : list nat) (r : nat) : Z := nth (nth r il 0%nat) y 0%Z.

(* two models may be trained together: different objects without a common parameter *)
Definition separate (same : bool) (ids1 ids2 : list Z) : Prop := same = false /\ forall i, In i ids1 -> ~ In i ids2.

(* ------------------------------------------------------------------ Meta Pseudo Labels *)
Section Mpl.
Variable softmax log_softmax sharp : list Q -> list Q.
Variable ce : list Q -> Z -> Q.
Variable cfg : mpl_config.
Variable t_l t_w t_s : Z -> list nat -> list (list Q).
Variable s_s : Z -> list nat -> list (list Q).
Variable s_l : Z -> Z -> list nat -> list (list Q).
Variable y : list Z.
Variable k : nat.

Definition mpl_numbers_ok : Prop :=
  0 <= uda_weight cfg /\ 0 <= uda_threshold cfg <= 1 /\ 0 <= smoothing cfg /\ smoothing cfg < 1 /\ 0 <= mpl_ema cfg /\ mpl_ema cfg < 1 /\ 0 <= mpl_weight cfg.

(* the teacher's labelled loss: cross entropy, against labels of which the share [smoothing] is spread over all classes *)
Definition labelled_loss (t : Z) (il : list nat) (v : Q) : Prop :=
  if Qle_bool (smoothing cfg) 0 then row_average (length il) (fun r => ce (nth r (t_l t il) []) (label_of y il r)) v
  else row_average (length il) (fun r =>
         (1 - smoothing cfg) * - nth (Z.to_nat (label_of y il r)) (log_softmax (nth r (t_l t il) [])) 0
         + smoothing cfg * - (Qsum (log_softmax (nth r (t_l t il) [])) / inject_Z (Z.of_nat k))) v.
(* the teacher's unlabelled loss: over the rows whose sharpened weak prediction is confident *)
Definition sure (t : Z) (iu : list nat) : list nat :=
  chosen (length iu) (fun r => confident (uda_threshold cfg) (sharp (nth r (t_w t iu) []))).
Definition consistency (t : Z) (iu : list nat) (v : Q) : Prop :=
  average (map (fun r => soft_cross_entropy k (sharp (nth r (t_w t iu) [])) (log_softmax (nth r (t_s t iu) []))) (sure t iu)) v.
(* the entropy of the teacher's strong predictions *)
Definition teacher_entropy (t : Z) (iu : list nat) (v : Q) : Prop :=
  row_average (length iu) (fun r => soft_cross_entropy k (softmax (nth r (t_s t iu) [])) (log_softmax (nth r (t_s t iu) []))) v.
(* how much the student's update changed its labelled loss *)
Definition change (t : Z) (il : list nat) (v : Q) : Prop :=
  exists before after,
    row_average (length il) (fun r => ce (nth r (s_l t t il) []) (label_of y il r)) before /\
    row_average (length il) (fun r => ce (nth r (s_l t (t + 1) il) []) (label_of y il r)) after /\ v == after - before.
(* the student learns the teacher's strong predictions *)
Definition student_objective (t : Z) (iu : list nat) (v : Q) : Prop :=
  row_average (length iu) (fun r => soft_cross_entropy k (softmax (nth r (t_s t iu) [])) (log_softmax (nth r (s_s t iu) []))) v.
(* the teacher's loss of step t when the student's changes up to this step are [changes] *)
Definition teacher_objective (t : Z) (il iu : list nat) (changes : list Q) (v : Q) : Prop :=
  exists sup uda ent,
    labelled_loss t il sup /\ consistency t iu uda /\ teacher_entropy t iu ent /\
    v == sup + uda_weight cfg * uda + mpl_weight cfg * ent * (last changes 0 - running (fun x => x) (mpl_ema cfg) 0 changes).
End Mpl.

(* ------------------------------------------------------------------ Deep Co-Training *)
Definition inside (lo hi : option Q) (x : Q) : Prop :=
  (forall a, lo = Some a -> a <= x) /\ (forall b, hi = Some b -> x <= b).
Definition dct_numbers_ok (cfg : dct_config) : Prop :=
  0 <= lambda_cot cfg /\ 0 <= lambda_dif cfg /\ 0 <= adv_eps cfg /\ (forall a b, clip_min cfg = Some a -> clip_max cfg = Some b -> a <= b).
(* sum of x * log(x + 1e-12) with the sign changed *)
Definition spread (log : Q -> Q) (k : nat) (p : nat -> Q) : Q := - Qsum (map (fun c => p c * log (p c + (1 # 1000000000000))) (seq 0 k)).
(* x (the original row), g (the gradient), a (the row after the attack): every value moves by eps in the direction of the sign
   of its gradient, and then into the clip range *)
Definition attacked (eps : Q) (lo hi : option Q) (x g a : list Q) : Prop :=
  length a = length x /\
  forall j, (j < length x)%nat ->
    let moved := nth j x 0 + (if Qlt_le_dec 0 (nth j g 0) then eps else if Qlt_le_dec (nth j g 0) 0 then - eps else 0) in
    (inside lo hi moved -> nth j a 0 == moved) /\ (forall l, lo = Some l -> moved < l -> nth j a 0 == l) /\ (forall h, hi = Some h -> h < moved -> nth j a 0 == h).

Section Dct.
Variable softmax log_softmax : list Q -> list Q.
Variable ce : list Q -> Z -> Q.
Variable argmax : list Q -> Z.
Variable log : Q -> Q.
Variable cfg : dct_config.
Variable X_l X_u : list (list Q).
Variable y : list Z.
Variable net_attack net_clean net_adv : nat -> Z -> list (list Q) -> list (list Q).
Variable grad : nat -> Z -> list (list Q) -> list Z -> list (list Q).
Variable k : nat.
(* the input of one network in a step: labelled rows, then unlabelled rows *)
Definition rows_of (il iu : list nat) (x : list (list Q)) : Prop :=
  length x = (length il + length iu)%nat /\
  (forall r, (r < length il)%nat -> nth r x [] = nth (nth r il 0%nat) X_l []) /\
  (forall r, (r < length iu)%nat -> nth (length il + r) x [] = nth (nth r iu 0%nat) X_u []).
(* the attack on network v's input x: labelled rows are attacked with their labels, the others with the network's own
   prediction *)
Definition attack (v : nat) (t : Z) (il : list nat) (x a : list (list Q)) : Prop :=
  exists targets,
    length targets = length x /\
    (forall r, (r < length il)%nat -> nth r targets 0%Z = label_of y il r) /\
    (forall r, (length il <= r < length x)%nat -> nth r targets 0%Z = argmax (nth r (net_attack v t x) [])) /\
    length a = length x /\
    forall r, (r < length x)%nat -> attacked (adv_eps cfg) (clip_min cfg) (clip_max cfg) (nth r x []) (nth r (grad v t x targets) []) (nth r a []).
Definition co_objective (t : Z) (i1 i2 iu : list nat) (loss : Q) : Prop :=
  exists x1 x2 a1 a2 sup1 sup2 cot dif1 dif2,
    rows_of i1 iu x1 /\ rows_of i2 iu x2 /\ attack 0 t i1 x1 a1 /\ attack 1 t i2 x2 a2 /\
    row_average (length i1) (fun r => ce (nth r (net_clean 0 t x1) []) (label_of y i1 r)) sup1 /\
    row_average (length i2) (fun r => ce (nth r (net_clean 1 t x2) []) (label_of y i2 r)) sup2 /\
    row_average (length iu) (fun r =>
      let p c := nth c (softmax (nth (length i1 + r) (net_clean 0 t x1) [])) 0 in
      let q c := nth c (softmax (nth (length i2 + r) (net_clean 1 t x2) [])) 0 in
      spread log k (fun c => (1 # 2) * (p c + q c)) - (1 # 2) * spread log k p - (1 # 2) * spread log k q) cot /\
    row_average (length x1) (fun r => soft_cross_entropy k (softmax (nth r (net_clean 0 t x1) [])) (log_softmax (nth r (net_adv 1 t a1) []))) dif1 /\
    row_average (length x2) (fun r => soft_cross_entropy k (softmax (nth r (net_clean 1 t x2) [])) (log_softmax (nth r (net_adv 0 t a2) []))) dif2 /\
    loss == sup1 + sup2 + lambda_cot cfg * cot + lambda_dif cfg * (dif1 + dif2).
End Dct.

(* ------------------------------------------------------------------ VAT *)
(* a length of vectors: not negative, and scaling a vector scales its length *)
Definition norm_ok (norm : list Q -> Q) : Prop :=
  (forall v, 0 <= norm v) /\ (forall c v w, 0 <= c -> Forall2 (fun a b => b == a * c) v w -> norm w == norm v * c).
(* r points in the direction of d and has length c; it is shorter only when d is shorter than 1e-12 *)
Definition stretched (norm : list Q -> Q) (c : Q) (d r : list Q) : Prop :=
  (exists f, 0 < f /\ Forall2 (fun a b => b == a * f) d r) /\ norm r <= c /\ ((1 # 1000000000000) <= norm d -> norm r == c).
(* the perturbations tried, each the last direction stretched to length xi; the next direction is the gradient there *)
Definition ascent (norm : list Q -> Q) (xi : Q) (gradient : nat -> list (list Q) -> option (list (list Q))) (start : list (list Q)) (tried : list (list (list Q))) (d : list (list Q)) : Prop :=
  exists ds, length ds = S (length tried) /\ nth 0 ds [] = start /\ last ds [] = d /\
    forall i, (i < length tried)%nat -> Forall2 (stretched norm xi) (nth i ds []) (nth i tried []) /\ gradient i (nth i tried []) = Some (nth (S i) ds []).
(* the adversarial perturbation: the last direction of [iters] such steps, stretched to length eps *)
Definition adversarial (norm : list Q -> Q) (xi eps : Q) (gradient : nat -> list (list Q) -> option (list (list Q))) (iters : Z) (start r : list (list Q)) : Prop :=
  exists tried d, lenZ tried = iters /\ ascent norm xi gradient start tried d /\ Forall2 (stretched norm eps) d r.
Section Objectives.
Variable softmax log_softmax : list Q -> list Q.
Variable ce : list Q -> Z -> Q.
Variable log : Q -> Q.
Variable net_l net_w net_s : Z -> list nat -> list (list Q).
Variable y : list Z.
Variable lambda_u : Q.
Variable k : nat.
Variable warmup : Z.
(* the Pi-Model's loss of a step: cross entropy, and the warmed-up mean square difference of the two predictions *)
Definition pi_loss_spec (t : Z) (il iu : list nat) (loss : Q) : Prop :=
  exists sup unsup warm,
    row_average (length il) (fun r => ce (nth r (net_l t il) []) (label_of y il r)) sup /\
    average (entries_of (length iu) k (fun r c => square (cell (map softmax (net_s t iu)) r c - cell (map softmax (net_w t iu)) r c))) unsup /\
    ramp warmup t warm /\ loss == sup + lambda_u * unsup * warm.


Variable norm : list Q -> Q.
Variable clean : Z -> list nat -> list (list Q).
Variable gradient : Z -> nat -> list nat -> list (list Q) -> list (list Q) -> option (list (list Q)).
Variable moved : Z -> list nat -> list (list Q) -> list (list Q).
Variable randn : Z -> nat -> list (list Q).
Variables xi eps : Q.
Variable iters : Z.
(* VAT's loss of a step and the perturbation it used: cross entropy, and the warmed-up mean divergence between the clean
   prediction and the prediction under the adversarial perturbation *)
Definition vat_step_ok (t : Z) (il iu : list nat) (out : Q * list (list Q)) : Prop :=
  exists sup vat warm,
    row_average (length il) (fun r => ce (nth r (net_l t il) []) (label_of y il r)) sup /\
    adversarial norm xi eps (fun j => gradient t j iu (map softmax (clean t iu))) iters (randn t (length iu)) (snd out) /\
    row_average (length iu) (fun i => divergence k log (softmax (nth i (clean t iu) [])) (log_softmax (nth i (moved t iu (snd out)) []))) vat /\
    ramp warmup t warm /\ fst out == sup + lambda_u * vat * warm.

End Objectives.

(* what an epoch of one stream of batches looks like *)
Definition even_epoch (n : nat) (b steps : Z) (e : list (list nat)) : Prop :=
  lenZ e = steps /\ Forall (proper_batch n b) e /\ exists k, just_enough (Z.of_nat n) b k /\ even_use n k steps e.
Definition dct_steps_ok (n_l n_u : nat) (b max_epochs : Z) (steps : list (list nat * list nat * list nat)) : Prop :=
  exists m e1 e2 eu, (forall k_l k_u, just_enough (Z.of_nat n_l) b k_l -> just_enough (Z.of_nat n_u) b k_u -> m = Z.max k_l k_u) /\
    lenZ e1 = max_epochs /\ lenZ e2 = max_epochs /\ lenZ eu = max_epochs /\
    Forall (even_epoch n_l b m) e1 /\ Forall (even_epoch n_l b m) e2 /\ Forall (even_epoch n_u b m) eu /\
    map (fun s => fst (fst s)) steps = concat e1 /\ map (fun s => snd (fst s)) steps = concat e2 /\ map snd steps = concat eu /\
    forall i1 i2 iu, In (i1, i2, iu) steps -> length i1 = length i2.
