(* Model of the deep methods that train a pair of networks or compare a network with itself on other inputs: Meta Pseudo
   Labels, Deep Co-Training, the Pi-Model and VAT
   (src/modssc/inductive/methods/{meta_pseudo_labels,deep_co_training,pi_model,vat}.py).
   Tensors are lists of rows of rationals.  A network is an arbitrary function of the training step and of the rows it is
   given; what the optimisers do between two steps is part of that function. *)
From Coq Require Import QArith Qminmax.
From Verif Require Import Prelude QFacts EnsembleModel DeepBatchModel DeepLossModel DeepEmaModel.
Local Open Scope Z_scope.
Local Open Scope Q_scope.
Local Open Scope list_scope.

(* a parameter's identity occurs on both sides (meta_pseudo_labels.py 115-127, deep_co_training.py 195-207); [same]: the
   two models are one object *)
Definition check_models (same : bool) (ids1 ids2 : list Z) : result unit :=
  if same then Err InductiveValidationError
  else if existsb (fun i => memZ i ids1) ids2 then Err InductiveValidationError
  else Ok tt.

Section Losses.
Variable softmax log_softmax : list Q -> list Q.
Variable ce : list Q -> Z -> Q.
Variable argmax : list Q -> Z.
Variable log : Q -> Q.

(* _soft_cross_entropy, row by row (meta_pseudo_labels.py 44-49, deep_co_training.py 46-51 which also takes the mean) *)
Definition soft_ce_rows (targets logits : list (list Q)) : list Q := zipw (fun t z => - Qsum (zipw Qmult t (log_softmax z))) targets logits.

(* ------------------------------------------------------------------ Meta Pseudo Labels *)
(* true_dist of _label_smoothed_ce (meta_pseudo_labels.py 60-65) for one row *)
Definition smoothed_target (smoothing : Q) (k : nat) (c : Z) : list Q :=
  map (fun j => if (Z.of_nat j =? c)%Z then 1 - smoothing + smoothing / inject_Z (Z.of_nat k) else smoothing / inject_Z (Z.of_nat k)) (seq 0 k).
(* _label_smoothed_ce (52-66) *)
Definition smoothed_ce (smoothing : Q) (logits : list (list Q)) (y : list Z) : result Q :=
  if Qle_bool smoothing 0 then Ok (ce_mean ce logits y)
  else if Qle_bool 1 smoothing then Err InductiveValidationError
  else Ok (Qmean (soft_ce_rows (map (smoothed_target smoothing (width logits)) y) logits)).
(* _entropy_loss (69-73) *)
Definition entropy_loss (logits : list (list Q)) : Q := Qmean (soft_ce_rows (map softmax logits) logits).
(* _uda_loss (137-153); [sharp]: softmax of the logits over the temperature *)
Variable sharp : list Q -> list Q.
Definition teacher_uda (temperature threshold : Q) (lw ls : list (list Q)) : result Q :=
  if Qle_bool temperature 0 then Err InductiveValidationError
  else
    let probs := map sharp lw in
    let mask := if Qle_bool threshold 0 then map (fun _ => 1) probs else mask_of threshold probs in
    Ok (kept_mean (soft_ce_rows probs ls) mask).

Record mpl_config := { uda_weight : Q; uda_threshold : Q; uda_temperature : Q; smoothing : Q; mpl_ema : Q; mpl_weight : Q }.
Section Mpl.
Variable cfg : mpl_config.
(* the teacher's logits of rows of X_l_s, X_u_w and X_u_s at a step; the student's logits of rows of X_u_s at a step, and of
   rows of X_l at a step when the given number of student updates have been made *)
Variable t_l t_w t_s : Z -> list nat -> list (list Q).
Variable s_s : Z -> list nat -> list (list Q).
Variable s_l : Z -> Z -> list nat -> list (list Q).
Variable y : list Z.
(* one step (296-376): the student's loss, the teacher's loss and the new running average.  The student is updated once per
   step, between the two evaluations on the labelled rows. *)
Definition mpl_step (t : Z) (il iu : list nat) (ma : Q) : result ((Q * Q) * Q) :=
  let ll := t_l t il in let lw := t_w t iu in let ls := t_s t iu in
  let yb := map (fun i => nth i y 0%Z) il in
  do _ <- check_step ll yb lw ls;
  do sup <- smoothed_ce (smoothing cfg) ll yb;
  do uda <- teacher_uda (uda_temperature cfg) (uda_threshold cfg) lw ls;
  let ent := entropy_loss ls in
  let old := s_l t t il in
  if negb (Nat.eqb (width old) (width ll)) then Err InductiveValidationError
  else
    let su := s_s t iu in
    if negb (Nat.eqb (width su) (width ll)) then Err InductiveValidationError
    else
      let student_loss := Qmean (soft_ce_rows (map softmax ls) su) in
      let new := s_l t (t + 1) il in
      if negb (Nat.eqb (width new) (width ll)) then Err InductiveValidationError
      else
        let dot := ce_mean ce new yb - ce_mean ce old yb in
        let ma1 := mpl_ema cfg * ma + (1 - mpl_ema cfg) * dot in
        let adj := dot - ma1 in
        let with_uda := if Qeq_bool (uda_weight cfg) 0 then sup else sup + uda_weight cfg * uda in
        let teacher_loss := if Qeq_bool (mpl_weight cfg) 0 then with_uda else with_uda + mpl_weight cfg * ent * adj in
        Ok ((student_loss, teacher_loss), ma1).
Fixpoint mpl_steps (t : Z) (steps : list (list nat * list nat)) (ma : Q) : result (list (Q * Q)) :=
  match steps with
  | [] => Ok []
  | (il, iu) :: rest =>
      do ' (losses, ma1) <- mpl_step t il iu ma;
      do more <- mpl_steps (t + 1) rest ma1;
      Ok (losses :: more)
  end.
(* the numeric checks of fit (258-267); those on the batch size and the number of epochs are made in fit_batches *)
Definition check_mpl : result unit :=
  if negb (Qle_bool 0 (uda_weight cfg)) then Err InductiveValidationError
  else if negb (Qle_bool 0 (uda_threshold cfg) && Qle_bool (uda_threshold cfg) 1) then Err InductiveValidationError
  else if negb (Qle_bool 0 (smoothing cfg)) || Qle_bool 1 (smoothing cfg) then Err InductiveValidationError
  else if negb (Qle_bool 0 (mpl_ema cfg) && negb (Qle_bool 1 (mpl_ema cfg))) then Err InductiveValidationError
  else if negb (Qle_bool 0 (mpl_weight cfg)) then Err InductiveValidationError
  else Ok tt.
End Mpl.
(* MetaPseudoLabelsMethod.fit (155-398): the losses of every step.  [n_s], [n_ls]: the numbers of rows of X_u_s and of
   X_l_s.  Left out: types, devices, the initialisation of the teacher (which is part of the networks), the choice of X_l_s
   among the views. *)
Definition mpl_fit {St} (G : Gen St) (cfg : mpl_config) t_l t_w t_s s_s s_l (same : bool) (ids_t ids_s : list Z) (y : list Z)
    (n_l n_u n_s n_ls : nat) (b max_epochs : Z) (sl su : St) : result (list (Q * Q)) :=
  if Nat.eqb n_l 0 || Nat.eqb n_u 0 || Nat.eqb n_s 0 then Err InductiveValidationError
  else if negb (Nat.eqb n_u n_s) then Err InductiveValidationError
  else if negb (Nat.eqb n_ls n_l) then Err InductiveValidationError
  else
    do _ <- check_models same ids_t ids_s;
    do epochs <- fit_batches G n_l n_u b max_epochs sl su;
    do _ <- check_mpl cfg;
    mpl_steps cfg t_l t_w t_s s_s s_l y 0 (concat epochs) 0.

(* ------------------------------------------------------------------ Deep Co-Training *)
(* torch.sign *)
Definition sign (x : Q) : Q := if Qle_bool x 0 then (if Qle_bool 0 x then 0 else -1) else 1.
(* torch.clamp with optional bounds (deep_co_training.py 147-152; 135-138 on graphs, the same for lo <= hi) *)
Definition clamp (lo hi : option Q) (x : Q) : Q :=
  let x1 := match lo with Some a => Qmax x a | None => x end in
  match hi with Some b => Qmin x1 b | None => x1 end.
(* the targets of the attack (112-122): labels for the labelled rows, the network's own predictions for the others *)
Definition attack_targets (yb : list Z) (logits : list (list Q)) : list Z := yb ++ map argmax (skipn (length yb) logits).
(* _fgsm_adversarial (54-154) on the rows x_all = x_l ++ x_u; [grad]: the gradient of the cross entropy with these targets,
   zeros if there is none *)
Definition fgsm (logits : list (list Q)) (grad : list Z -> list (list Q)) (eps : Q) (lo hi : option Q) (yb : list Z) (x_all : list (list Q))
    : result (list (list Q)) :=
  if negb (Nat.eqb (length logits) (length x_all)) then Err InductiveValidationError
  else Ok (zipw (zipw (fun x g => clamp lo hi (x + eps * sign g))) x_all (grad (attack_targets yb logits))).
(* _entropy and _js_divergence (36-43) *)
Definition entropy (p : list Q) : Q := - Qsum (map (fun x => x * log (x + tiny)) p).
Definition js (p q : list (list Q)) : Q :=
  Qmean (zipw (fun a b => entropy (zipw (fun x v => (1 # 2) * (x + v)) a b) - (1 # 2) * entropy a - (1 # 2) * entropy b) p q).

Record dct_config := { lambda_cot : Q; lambda_dif : Q; adv_eps : Q; clip_min : option Q; clip_max : option Q }.
Section Dct.
Variable cfg : dct_config.
Variable X_l X_u : list (list Q).
Variable y : list Z.
(* the logits of network v (0 or 1) for given input rows at a step: in the attack, for the clean rows, and for adversarial
   rows; and the gradient of network v in the attack *)
Variable net_attack net_clean net_adv : nat -> Z -> list (list Q) -> list (list Q).
Variable grad : nat -> Z -> list (list Q) -> list Z -> list (list Q).
Definition pick (l : list (list Q)) (idx : list nat) : list (list Q) := map (fun i => nth i l []) idx.
(* one step (349-478): the loss that both optimisers follow *)
Definition dct_step (t : Z) (i1 i2 iu : list nat) : result Q :=
  let y1 := map (fun i => nth i y 0%Z) i1 in let y2 := map (fun i => nth i y 0%Z) i2 in
  if negb (Nat.eqb (length i1) (length i2)) then Err InductiveValidationError
  else
    let x1 := pick X_l i1 ++ pick X_u iu in
    let x2 := pick X_l i2 ++ pick X_u iu in
    do adv1 <- fgsm (net_attack 0 t x1) (grad 0 t x1) (adv_eps cfg) (clip_min cfg) (clip_max cfg) y1 x1;
    do adv2 <- fgsm (net_attack 1 t x2) (grad 1 t x2) (adv_eps cfg) (clip_min cfg) (clip_max cfg) y2 x2;
    let l1 := net_clean 0 t x1 in let l2 := net_clean 1 t x2 in
    if negb (Nat.eqb (length l1) (length x1)) || negb (Nat.eqb (length l2) (length x2)) || negb (Nat.eqb (width l1) (width l2)) then Err InductiveValidationError
    else
      let sup := ce_mean ce (firstn (length i1) l1) y1 + ce_mean ce (firstn (length i2) l2) y2 in
      let cot := js (map softmax (skipn (length i1) l1)) (map softmax (skipn (length i2) l2)) in
      let a2 := net_adv 1 t adv1 in let a1 := net_adv 0 t adv2 in
      if negb (Nat.eqb (length a2) (length adv1)) || negb (Nat.eqb (length a1) (length adv2)) || negb (Nat.eqb (width a2) (width l1)) || negb (Nat.eqb (width a1) (width l2)) then Err InductiveValidationError
      else
        let dif := Qmean (soft_ce_rows (map softmax l1) a2) + Qmean (soft_ce_rows (map softmax l2) a1) in
        let with_cot := if Qeq_bool (lambda_cot cfg) 0 then sup else sup + lambda_cot cfg * cot in
        Ok (if Qeq_bool (lambda_dif cfg) 0 then with_cot else with_cot + lambda_dif cfg * dif).
Fixpoint dct_steps (t : Z) (steps : list (list nat * list nat * list nat)) : result (list Q) :=
  match steps with
  | [] => Ok []
  | (i1, i2, iu) :: rest => do loss <- dct_step t i1 i2 iu; do more <- dct_steps (t + 1) rest; Ok (loss :: more)
  end.
(* the numeric checks (293-304) after those on the batch size and the number of epochs *)
Definition check_dct : result unit :=
  if negb (Qle_bool 0 (lambda_cot cfg)) then Err InductiveValidationError
  else if negb (Qle_bool 0 (lambda_dif cfg)) then Err InductiveValidationError
  else if negb (Qle_bool 0 (adv_eps cfg)) then Err InductiveValidationError
  else match clip_min cfg, clip_max cfg with
       | Some a, Some b => if negb (Qle_bool a b) then Err InductiveValidationError else Ok tt
       | _, _ => Ok tt
       end.
End Dct.
(* the batches of a fit (306-348): three generators *)
Definition dct_batches {St} (G : Gen St) (n_l n_u : nat) (b max_epochs : Z) (s1 s2 su : St) : result (list (list nat * list nat * list nat)) :=
  let steps := steps_per_epoch (Z.of_nat n_l) (Z.of_nat n_u) b in
  do ' (b1, _) <- epoch_batches G (Z.to_nat max_epochs) n_l b steps s1;
  do ' (b2, _) <- epoch_batches G (Z.to_nat max_epochs) n_l b steps s2;
  do ' (bu, _) <- epoch_batches G (Z.to_nat max_epochs) n_u b steps su;
  Ok (combine (combine (concat b1) (concat b2)) (concat bu)).
(* DeepCoTrainingMethod.fit (209-495).  Left out: types and devices. *)
Definition dct_fit {St} (G : Gen St) (cfg : dct_config) (X_l X_u : list (list Q)) (y : list Z) net_attack net_clean net_adv grad
    (same : bool) (ids1 ids2 : list Z) (b max_epochs : Z) (s1 s2 su : St) : result (list Q) :=
  if Nat.eqb (length X_l) 0 || Nat.eqb (length X_u) 0 then Err InductiveValidationError
  else
    do _ <- check_models same ids1 ids2;
    if (b <=? 0)%Z then Err InductiveValidationError
    else if (max_epochs <=? 0)%Z then Err InductiveValidationError
    else
      do _ <- check_dct cfg;
      do steps <- dct_batches G (length X_l) (length X_u) b max_epochs s1 s2 su;
      dct_steps cfg X_l X_u y net_attack net_clean net_adv grad 0 steps.
(* predict_proba (497-560), the two networks being row-wise in eval mode *)
Definition dct_predict {X} (score : nat -> X -> list Q) (width_of : nat -> nat) (fitted : bool) (b : Z) (xs : list X) : result (list (list Q)) :=
  if negb fitted then Err RuntimeError
  else
    do starts <- py_range (lenZ xs) b;
    if negb (Nat.eqb (width_of 0%nat) (width_of 1%nat)) then Err InductiveValidationError
    else
      let logits v := flat_map (fun st => map (score v) (slice xs st b)) starts in
      Ok (zipw (zipw (fun p q => (p + q) * (1 # 2))) (map softmax (logits 0%nat)) (map softmax (logits 1%nat))).

(* ------------------------------------------------------------------ Pi-Model *)
Section Pi.
Variable net_l net_w net_s : Z -> list nat -> list (list Q).
Variable y : list Z.
Variable lambda_u : Q.
Variable n_s : nat.
Variable warmup : Z.
(* one step (pi_model.py 167-213).  X_u_s is indexed with the rows drawn for X_u_w. *)
Definition pi_step (t : Z) (il iu : list nat) : result Q :=
  if existsb (fun i => Nat.leb n_s i) iu then Err IndexError
  else
    let ll := net_l t il in let lw := net_w t iu in let ls := net_s t iu in
    let yb := map (fun i => nth i y 0%Z) il in
    do _ <- check_step ll yb lw ls;
    Ok (ce_mean ce ll yb + lambda_u * mse (map softmax ls) (map softmax lw) * warm_factor warmup t).
Fixpoint pi_steps (t : Z) (steps : list (list nat * list nat)) : result (list Q) :=
  match steps with
  | [] => Ok []
  | (il, iu) :: rest => do loss <- pi_step t il iu; do more <- pi_steps (t + 1) rest; Ok (loss :: more)
  end.
End Pi.
(* PiModelMethod.fit (pi_model.py 69-218) *)
Definition pi_fit {St} (G : Gen St) net_l net_w net_s (y : list Z) (lambda_u fraction : Q) (n_l n_u n_s : nat) (b max_epochs : Z) (sl su : St) : result (list Q) :=
  if Nat.eqb n_s 0 then Err InductiveValidationError
  else
    do epochs <- fit_batches G n_l n_u b max_epochs sl su;
    do _ <- check_numbers lambda_u fraction;
    let total := (max_epochs * steps_per_epoch (Z.of_nat n_l) (Z.of_nat n_u) b)%Z in
    pi_steps net_l net_w net_s y lambda_u n_s (warmup_steps fraction total) 0 (concat epochs).

(* ------------------------------------------------------------------ VAT *)
Section Vat.
Variable norm : list Q -> Q.             (* torch.norm of a flattened row *)
(* _l2_normalize (vat.py 54-63), row by row *)
Definition normalize (rows : list (list Q)) : list (list Q) := map (fun r => map (fun x => x / Qmax (norm r) tiny) r) rows.
Definition scale (c : Q) (rows : list (list Q)) : list (list Q) := map (map (fun x => x * c)) rows.
(* what _vat_loss (109-196) asks of the network at a step: the logits of the clean rows; then for every iteration the gradient
   at a perturbation, None when it does not reach the input; then the logits of the rows with a perturbation added *)
Variable clean : Z -> list nat -> list (list Q).
Variable gradient : Z -> nat -> list nat -> list (list Q) -> list (list Q) -> option (list (list Q)).
Variable moved : Z -> list nat -> list (list Q) -> list (list Q).
Variable randn : Z -> nat -> list (list Q).
Variables xi eps : Q.
(* the power iteration (153-185): the perturbations tried and the final direction *)
Fixpoint power_iteration (t : Z) (iu : list nat) (probs : list (list Q)) (i iters : nat) (d : list (list Q)) : result (list (list (list Q)) * list (list Q)) :=
  match iters with
  | O => Ok ([], d)
  | S n =>
      let d1 := scale xi (normalize d) in
      match gradient t i iu probs d1 with
      | None => Err InductiveValidationError
      | Some g => do ' (tried, d2) <- power_iteration t iu probs (S i) n g; Ok (d1 :: tried, d2)
      end
  end.
Definition vat_loss (t : Z) (iu : list nat) (iters : Z) : result (Q * list (list (list Q)) * list (list Q)) :=
  if (iters <=? 0)%Z then Err InductiveValidationError
  else
    let probs := map softmax (clean t iu) in
    do ' (tried, d) <- power_iteration t iu probs 0 (Z.to_nat iters) (randn t (length iu));
    let r_adv := scale eps (normalize d) in
    let logits := moved t iu r_adv in
    Ok (Qmean (zipw (kl log_softmax log) probs logits), tried, r_adv).
Variable net_l : Z -> list nat -> list (list Q).
Variable y : list Z.
Variable lambda_u : Q.
Variable warmup : Z.
Variable iters : Z.
(* one step (307-348): the loss, and the perturbation that was used *)
Definition vat_step (t : Z) (il iu : list nat) : result (Q * list (list Q)) :=
  let ll := net_l t il in
  let yb := map (fun i => nth i y 0%Z) il in
  if existsb (fun c => (c <? 0)%Z || (Z.of_nat (width ll) <=? c)%Z) yb then Err InductiveValidationError
  else
    do ' (vat, tried, r_adv) <- vat_loss t iu iters;
    Ok (ce_mean ce ll yb + lambda_u * vat * warm_factor warmup t, r_adv).
Fixpoint vat_steps (t : Z) (steps : list (list nat * list nat)) : result (list (Q * list (list Q))) :=
  match steps with
  | [] => Ok []
  | (il, iu) :: rest => do loss <- vat_step t il iu; do more <- vat_steps (t + 1) rest; Ok (loss :: more)
  end.
End Vat.
(* VATMethod.fit (198-353) *)
Definition vat_fit {St} (G : Gen St) norm clean gradient moved randn (xi eps : Q) net_l (y : list Z) (lambda_u fraction : Q) (iters : Z)
    (n_l n_u : nat) (b max_epochs : Z) (sl su : St) : result (list (Q * list (list Q))) :=
  do epochs <- fit_batches G n_l n_u b max_epochs sl su;
  if negb (Qle_bool 0 lambda_u) then Err InductiveValidationError
  else if Qle_bool xi 0 then Err InductiveValidationError
  else if Qle_bool eps 0 then Err InductiveValidationError
  else if (iters <=? 0)%Z then Err InductiveValidationError
  else if negb (Qle_bool 0 fraction) then Err InductiveValidationError
  else
    let total := (max_epochs * steps_per_epoch (Z.of_nat n_l) (Z.of_nat n_u) b)%Z in
    vat_steps norm clean gradient moved randn xi eps net_l y lambda_u (warmup_steps fraction total) iters 0 (concat epochs).
End Losses.
