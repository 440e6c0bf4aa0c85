(* Model of the consistency methods that compare the network with an average of its past: Temporal Ensembling and Mean
   Teacher (src/modssc/inductive/methods/{temporal_ensembling,mean_teacher}.py), of the warm-up of the unlabelled loss
   they share with the Pi-model, MixMatch, VAT and Noisy Student, and of MixMatch's mixing step (mixmatch.py).
   Tensors are lists of rows of rationals.  The network is an arbitrary function of the training step and of the rows it
   is given, so that any sequence of weights, dropout masks and batch statistics is covered. *)
From Coq Require Import QArith Qminmax.
From Verif Require Import Prelude QFacts EnsembleModel DeepBatchModel DeepLossModel.
Local Open Scope Z_scope.
Local Open Scope Q_scope.
Local Open Scope list_scope.

(* ------------------------------------------------------------------ warm-up *)
(* warmup_steps (temporal_ensembling.py 148-152, mean_teacher.py 179-183, mixmatch.py 288-292, pi_model.py 140-144,
   vat.py 276-280, noisy_student.py 251-255).  The product is exact here. *)
Definition warmup_steps (fraction : Q) (total_steps : Z) : Z :=
  if Qle_bool fraction 0 then 0%Z else Z.max 1 (round_even (fraction * inject_Z total_steps)).
(* warm (temporal_ensembling.py 234, mean_teacher.py 242, mixmatch.py 374, pi_model.py 197, vat.py 330,
   noisy_student.py 352) *)
Definition warm_factor (warmup step_idx : Z) : Q :=
  if (warmup <=? 0)%Z then 1 else Qmin (inject_Z step_idx / inject_Z warmup) 1.

(* torch.mean((a - b) ** 2) over all entries *)
Definition mse (a b : list (list Q)) : Q := Qmean (concat (zipw (zipw (fun x y => (x - y) * (x - y))) a b)).

(* the numeric checks shared by the two fits (temporal_ensembling.py 134-141, mean_teacher.py 163-170); those on the
   batch size and the number of epochs are made in fit_batches *)
Definition check_numbers (lambda_u fraction : Q) : result unit :=
  if negb (Qle_bool 0 lambda_u) then Err InductiveValidationError
  else if negb (Qle_bool 0 fraction) then Err InductiveValidationError
  else Ok tt.

Section Fit.
Context {St : Type}.
Variable G : Gen St.
Variable softmax : list Q -> list Q.
Variable ce : list Q -> Z -> Q.

(* ------------------------------------------------------------------ Temporal Ensembling *)
Section Temporal.
(* the logits of the given rows of X_l, X_u_w and X_u_s at a training step *)
Variable net_l net_w net_s : Z -> list nat -> list (list Q).
Variable y : list Z.
Variables lambda_u fraction alpha : Q.
Variable n_u : nat.
Variable warmup : Z.

(* 0.5 * (prob_uw + prob_us) (temporal_ensembling.py 209-211) *)
Definition average_prob (lw ls : list (list Q)) : list (list Q) :=
  zipw (zipw (fun a b => (1 # 2) * (a + b))) (map softmax lw) (map softmax ls).
(* bias (163-164, 220-221); epoch counts from 0 *)
Definition bias (epoch : nat) : Q := Qmax (1 - alpha ^ (Z.of_nat epoch + 1)) tiny.
(* ensemble_predictions / bias (165, 222) *)
Definition te_targets (epoch : nat) (ens : list (list Q)) : list (list Q) := map (map (fun v => v / bias epoch)) ens.
(* torch.zeros and torch.zeros_like *)
Definition zeros (n k : nat) : list (list Q) := repeat (repeat 0 k) n.
Definition zeros_like (m : list (list Q)) : list (list Q) := map (map (fun _ => 0)) m.
(* epoch_predictions[idx_u] = prob_u (252) *)
Definition put_rows (m : list (list Q)) (idx : list nat) (v : list (list Q)) : list (list Q) :=
  fold_left (fun acc p => update acc (fst p) (fun _ => snd p)) (combine idx v) m.

(* ensemble_predictions, and (epoch_predictions, targets) once they exist *)
Definition te_mem : Type := option (list (list Q) * list (list Q) * list (list Q)).
(* one step of the loop (184-253) *)
Definition te_step (epoch : nat) (t : Z) (il iu : list nat) (mem : te_mem) : result (Q * te_mem) :=
  let ll := net_l t il in let lw := net_w t iu in let ls := net_s t iu in
  let yb := map (fun i => nth i y 0%Z) il in
  do _ <- check_step ll yb lw ls;
  let prob := average_prob lw ls in
  let '(ens, seen, targets) :=
    match mem with
    | Some m => m
    | None => let z := zeros n_u (width prob) in (z, zeros_like z, te_targets epoch z)
    end in
  let unsup := mse prob (map (fun i => nth i targets []) iu) in
  Ok (ce_mean ce ll yb + lambda_u * unsup * warm_factor warmup t, Some (ens, put_rows seen iu prob, targets)).
Fixpoint te_steps (epoch : nat) (t : Z) (steps : list (list nat * list nat)) (mem : te_mem) : result (list Q * te_mem) :=
  match steps with
  | [] => Ok ([], mem)
  | (il, iu) :: rest =>
      do ' (loss, mem1) <- te_step epoch t il iu mem;
      do ' (losses, mem2) <- te_steps epoch (t + 1) rest mem1;
      Ok (loss :: losses, mem2)
  end.
(* one epoch (160-260) *)
Definition te_epoch (epoch : nat) (t : Z) (steps : list (list nat * list nat)) (ens : option (list (list Q))) : result (list Q * option (list (list Q))) :=
  let mem := option_map (fun e => (e, zeros_like e, te_targets epoch e)) ens in
  do ' (losses, mem1) <- te_steps epoch t steps mem;
  match mem1 with
  | None => Err InductiveValidationError
  | Some (e, seen, _) => Ok (losses, Some (zipw (zipw (fun a b => alpha * a + (1 - alpha) * b)) e seen))
  end.
Fixpoint te_epochs (epoch : nat) (t : Z) (epochs : list (list (list nat * list nat))) (ens : option (list (list Q))) : result (list (list Q)) :=
  match epochs with
  | [] => Ok []
  | steps :: rest =>
      do ' (losses, ens1) <- te_epoch epoch t steps ens;
      do more <- te_epochs (S epoch) (t + lenZ steps) rest ens1;
      Ok (losses :: more)
  end.
End Temporal.
(* TemporalEnsemblingMethod.fit (temporal_ensembling.py 70-265): the losses that are differentiated, epoch by epoch.
   [n_s]: the number of rows of X_u_s.  The checks on types, devices and bundles are left out. *)
Definition te_fit (net_l net_w net_s : Z -> list nat -> list (list Q)) (y : list Z) (lambda_u fraction alpha : Q)
    (n_l n_u n_s : nat) (b max_epochs : Z) (sl su : St) : result (list (list Q)) :=
  if negb (Nat.eqb n_u n_s) then Err InductiveValidationError
  else
    do epochs <- fit_batches G n_l n_u b max_epochs sl su;
    do _ <- check_numbers lambda_u fraction;
    if negb (Qle_bool 0 alpha && negb (Qle_bool 1 alpha)) then Err InductiveValidationError
    else
      let total := (max_epochs * steps_per_epoch (Z.of_nat n_l) (Z.of_nat n_u) b)%Z in
      te_epochs net_l net_w net_s y lambda_u alpha n_u (warmup_steps fraction total) 0 0 epochs None.

(* ------------------------------------------------------------------ Mean Teacher *)
(* a parameter tensor; only its shape and device are looked at beside its entries *)
Record tensor := { tshape : list Z; tdevice : Z; tdata : list Q }.
(* _check_teacher (mean_teacher.py 70-81); [same]: teacher is student *)
Fixpoint check_params (s t : list tensor) : result unit :=
  match s, t with
  | [], [] => Ok tt
  | a :: s', b :: t' =>
      if list_eq_dec Z.eq_dec (tshape a) (tshape b) then
        if (tdevice a =? tdevice b)%Z then check_params s' t' else Err InductiveValidationError
      else Err InductiveValidationError
  | _, _ => Err InductiveValidationError
  end.
Definition check_teacher (same : bool) (s t : list tensor) : result unit :=
  if same then Err InductiveValidationError
  else if negb (Nat.eqb (length s) (length t)) then Err InductiveValidationError
  else check_params s t.
(* _update_teacher (91-93) *)
Definition update_teacher (decay : Q) (s t : list tensor) : list tensor :=
  zipw (fun a b => {| tshape := tshape b; tdevice := tdevice b; tdata := zipw (fun v w => v * decay + (1 - decay) * w) (tdata b) (tdata a) |}) s t.

Section Teacher.
(* the logits the network with the given parameters produces at a step, for rows of X_l, X_u_w and X_u_s *)
Variable net_l net_w net_s : Z -> list tensor -> list nat -> list (list Q).
Variable student : Z -> list tensor.       (* the student's parameters when t optimiser steps have been made *)
Variable y : list Z.
Variables lambda_u decay : Q.
Variable n_s : nat.
Variable warmup : Z.

(* one step (206-260).  X_u_s is indexed with the rows drawn for X_u_w. *)
Definition mt_step (t : Z) (il iu : list nat) (teacher : list tensor) : result (Q * list tensor) :=
  if existsb (fun i => Nat.leb n_s i) iu then Err IndexError
  else
    let ll := net_l t (student t) il in let ls := net_s t (student t) iu in
    let lw := net_w t teacher iu in
    let yb := map (fun i => nth i y 0%Z) il in
    do _ <- check_step ll yb lw ls;
    let unsup := mse (map softmax ls) (map softmax lw) in
    Ok (ce_mean ce ll yb + lambda_u * unsup * warm_factor warmup t, update_teacher decay (student (t + 1)%Z) teacher).
Fixpoint mt_steps (t : Z) (steps : list (list nat * list nat)) (teacher : list tensor) : result (list Q * list tensor) :=
  match steps with
  | [] => Ok ([], teacher)
  | (il, iu) :: rest =>
      do ' (loss, teacher1) <- mt_step t il iu teacher;
      do ' (losses, teacher2) <- mt_steps (t + 1) rest teacher1;
      Ok (loss :: losses, teacher2)
  end.
End Teacher.
(* MeanTeacherMethod.fit (mean_teacher.py 95-265): the losses and the parameters of the network used for predictions,
   which is bundle.model, the student, and of the teacher.  load_state_dict (83-89, 174) copies the student's
   parameters; the buffers it also copies are part of [net]. *)
Definition mt_fit (net_l net_w net_s : Z -> list tensor -> list nat -> list (list Q)) (student : Z -> list tensor) (teacher0 : list tensor) (same : bool)
    (y : list Z) (lambda_u fraction decay : Q) (n_l n_u n_s : nat) (b max_epochs : Z) (sl su : St) : result (list Q * list tensor * list tensor) :=
  if Nat.eqb n_s 0 then Err InductiveValidationError
  else
    do _ <- check_teacher same (student 0%Z) teacher0;
    do epochs <- fit_batches G n_l n_u b max_epochs sl su;
    do _ <- check_numbers lambda_u fraction;
    if negb (Qle_bool 0 decay && Qle_bool decay 1) then Err InductiveValidationError
    else
      let total := (max_epochs * steps_per_epoch (Z.of_nat n_l) (Z.of_nat n_u) b)%Z in
      let steps := concat epochs in
      do ' (losses, teacher) <- mt_steps net_l net_w net_s student y lambda_u decay n_s (warmup_steps fraction total) 0 steps (student 0%Z);
      Ok (losses, student (lenZ steps), teacher).
End Fit.

(* ------------------------------------------------------------------ MixMatch *)
(* the process-wide random state: Beta(alpha, alpha).sample((n,)) *)
Record World (W : Type) := { w_beta : W -> Q -> nat -> list Q * W }.
Arguments w_beta {W}.
Section Mix.
Context {St W : Type}.
Variable G : Gen St.
Variable world : World W.
(* lam * a + (1 - lam) * b on rows *)
Definition blend (lam : Q) (a b : list Q) : list Q := zipw (fun x v => lam * x + (1 - lam) * v) a b.
(* lam (mixmatch.py 63-68) *)
Definition mix_weights (alpha : Q) (batch : nat) (w : W) : list Q * W :=
  if Qle_bool alpha 0 then (repeat 1 batch, w)
  else let '(draws, w1) := w_beta world w alpha batch in (map (fun l => Qmax l (1 - l)) draws, w1).
(* _mixup (mixmatch.py 44-84) on rows of features or of inputs flattened to rows.  The type checks are left out; of a
   graph input only "x" is mixed, which is [xs] here. *)
Definition mixup (alpha : Q) (xs ys : list (list Q)) (s : St) (w : W) : result (list (list Q) * list (list Q) * St * W) :=
  if negb (Nat.eqb (length xs) (length ys)) then Err InductiveValidationError
  else if Nat.eqb (length xs) 0 then Err InductiveValidationError
  else
    let '(lam, w1) := mix_weights alpha (length xs) w in
    let '(perm, s1) := g_perm G s (length xs) in
    let pick l := map (fun i => nth i l []) perm in
    let mix l := zipw (fun lm p => blend lm (fst p) (snd p)) lam (combine l (pick l)) in
    Ok (mix xs, mix ys, s1, w1).

Variable softmax log_softmax : list Q -> list Q.
Variable pow : Q -> Q.
Variable call : list (list Q) -> list (list Q).      (* the network's logits for a batch *)

(* torch.nn.functional.one_hot *)
Definition one_hot (k : nat) (c : Z) : list Q := map (fun j => if (Z.of_nat j =? c)%Z then 1 else 0) (seq 0 k).
(* the targets (mixmatch.py 328-342); [one]: temperature = 1 *)
Definition mm_targets (one : bool) (yb : list Z) (lw ls : list (list Q)) : result (list (list Q)) :=
  if negb (same_shape lw ls) then Err InductiveValidationError
  else
    let probs := zipw (zipw (fun a b => (a + b) / 2)) (map softmax lw) (map softmax ls) in
    let pseudo := map (sharpen pow one) probs in
    if existsb (fun c => (c <? 0)%Z || (Z.of_nat (width pseudo) <=? c)%Z) yb then Err InductiveValidationError
    else Ok (map (one_hot (width pseudo)) yb ++ pseudo ++ pseudo).
(* one step of MixMatchMethod.fit (mixmatch.py 315-375) without manifold mixing, or with it when xl, xw, xs are the
   features and [call] is the head *)
Definition mm_step (one : bool) (alpha lambda_u warm : Q) (xl xw xs : list (list Q)) (yb : list Z) (lw ls : list (list Q)) (s : St) (w : W)
    : result (Q * St * W) :=
  do targets <- mm_targets one yb lw ls;
  do ' (mixed_x, mixed_y, s1, w1) <- mixup alpha (xl ++ xw ++ xs) targets s w;
  let logits := call mixed_x in
  let n := length xl in
  let sup := Qmean (zipw (fun t z => - Qsum (zipw Qmult t (log_softmax z))) (firstn n mixed_y) (firstn n logits)) in
  let unsup := mse (map softmax (skipn n logits)) (skipn n mixed_y) in
  Ok (sup + lambda_u * unsup * warm, s1, w1).
End Mix.
