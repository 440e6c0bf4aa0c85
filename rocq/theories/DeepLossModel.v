(* Model of the training objective of one step of FixMatch, DeFixMatch, UDA and Noisy Student
   (src/modssc/inductive/methods/{fixmatch,defixmatch,uda,noisy_student}.py).  Tensors are lists of rows of rationals;
   softmax, log_softmax, cross_entropy, log, pow and exp are arbitrary functions, argmax is any function that returns a
   position of the maximum.  Simplification: infinite and undefined numbers do not occur, so 0 * loss is 0. *)
From Coq Require Import QArith String Qminmax.
From Verif Require Import Prelude QFacts.
Local Open Scope string_scope.
Local Open Scope Z_scope.
Local Open Scope Q_scope.
Local Open Scope list_scope.
Local Notation length := List.length.

Notation row := (list Q) (only parsing).

(* element by element *)
Definition zipw {A B C} (f : A -> B -> C) (a : list A) (b : list B) : list C := map (fun p => f (fst p) (snd p)) (combine a b).
(* the constant of clamp_min(1e-12) and of log(p + 1e-12) *)
Definition tiny : Q := 1 # 1000000000000.
(* row.max() *)
Definition row_max (p : row) : Q := match p with [] => 0 | x :: r => fold_left Qmax r x end.

Section Loss.
Variable softmax log_softmax : row -> row.
Variable ce : row -> Z -> Q.                 (* cross_entropy of one row of logits against a class *)
Variable argmax : row -> Z.
Variable pow : Q -> Q.                       (* x ** (1 / temperature) *)
Variable log : Q -> Q.

(* sharpen_probs (helpers/torch_support.py 62-71) on one row; [one]: temperature = 1 *)
Definition sharpen (one : bool) (p : row) : row :=
  if one then p
  else let s := map pow p in
       let denom := Qmax (Qsum s) tiny in
       map (fun x => x / denom) s.

(* (probs.max(dim=1).values >= p_cutoff).to(dtype) (fixmatch.py 208, uda.py 239, noisy_student.py 334-335) *)
Definition mask_of (cutoff : Q) (probs : list row) : list Q :=
  map (fun p => if Qle_bool cutoff (row_max p) then 1 else 0) probs.

(* fixmatch.py 210-216: the loss of every unlabelled row against its pseudo-label *)
Definition pseudo_losses (hard one : bool) (probs logits : list row) : list Q :=
  let soft := map (sharpen one) probs in
  if hard then zipw ce logits (map argmax soft)
  else zipw (fun z t => - Qsum (zipw Qmult t (log_softmax z))) logits soft.

(* fixmatch.py 218-222 *)
Definition masked_mean (losses mask : list Q) : Q :=
  match mask with
  | [] => 0
  | _ => Qsum (zipw Qmult losses mask) / Qmax (Qsum mask) 1
  end.

(* logits.shape: the number of rows and of columns.  Simplification: the width of a table without rows is 0. *)
Definition width (l : list row) : nat := match l with [] => O | r :: _ => length r end.
Definition same_shape (a b : list row) : bool := Nat.eqb (length a) (length b) && Nat.eqb (width a) (width b).
(* the checks of fixmatch.py 197-202 after the dimensions have been found to be two *)
Definition check_step (logits_l : list row) (y : list Z) (logits_w logits_s : list row) : result unit :=
  if negb (same_shape logits_w logits_s) then Err InductiveValidationError
  else if negb (Nat.eqb (width logits_w) (width logits_l)) then Err InductiveValidationError
  else if existsb (fun c => (c <? 0)%Z || (Z.of_nat (width logits_l) <=? c)%Z) y then Err InductiveValidationError
  else Ok tt.
(* cross_entropy(logits, y) with the default reduction *)
Definition ce_mean (logits : list row) (y : list Z) : Q := Qmean (zipw ce logits y).

(* one step of FixMatchMethod.fit (fixmatch.py 197-235): the loss that is differentiated *)
Definition fixmatch_loss (lambda_u cutoff : Q) (hard one : bool) (logits_l : list row) (y : list Z) (logits_w logits_s : list row) : result Q :=
  do _ <- check_step logits_l y logits_w logits_s;
  let probs := map softmax logits_w in
  let unsup := masked_mean (pseudo_losses hard one probs logits_s) (mask_of cutoff probs) in
  Ok (ce_mean logits_l y + lambda_u * unsup).

(* one step of DeFixMatchMethod.fit (defixmatch.py 239-312): the labelled rows, weakly and strongly augmented, are also
   treated as unlabelled ones and their loss is taken off *)
Definition defixmatch_loss (lambda_u cutoff : Q) (hard one : bool) (logits_l logits_ls : list row) (y : list Z) (logits_w logits_s : list row) : result Q :=
  if negb (same_shape logits_l logits_ls) then Err InductiveValidationError
  else
    do _ <- check_step logits_l y logits_w logits_s;
    let unsup_of w s := masked_mean (pseudo_losses hard one (map softmax w) s) (mask_of cutoff (map softmax w)) in
    Ok ((1 # 2) * (ce_mean logits_l y + ce_mean logits_ls y) + lambda_u * (unsup_of logits_w logits_s - unsup_of logits_l logits_ls)).

(* probs * (log(probs + 1e-12) - log_probs), summed (uda.py 242-243, noisy_student.py 40-42) *)
Definition kl (p z : row) : Q := Qsum (zipw (fun a b => a * (log (a + tiny) - b)) p (log_softmax z)).
(* uda.py 244-247, noisy_student.py 340-350: when no row is kept the mean is multiplied by 0.0 *)
Definition kept_mean (losses mask : list Q) : Q :=
  if Qeq_bool (Qsum mask) 0 then Qmean losses * 0 else Qsum (zipw Qmult losses mask) / Qsum mask.

(* _tsa_threshold (uda.py 37-52) *)
Variable exp : Q -> Q.
Definition tsa_threshold (schedule : string) (step total : Z) (n_classes : Z) : result Q :=
  if String.eqb schedule "none" then Ok 1
  else if (total <=? 0)%Z then Ok 1
  else
    let progress := inject_Z step / inject_Z total in
    do threshold <-
      (if String.eqb schedule "linear" then Ok progress
       else if String.eqb schedule "exp" then Ok (exp ((progress - 1) * 5))
       else if String.eqb schedule "log" then Ok (1 - exp (- progress * 5))
       else Err InductiveValidationError);
    Ok (threshold * (1 - 1 / inject_Z n_classes) + 1 / inject_Z n_classes).

(* one step of UDAMethod.fit (uda.py 213-270).  [sharp]: softmax of the logits divided by the temperature. *)
Variable sharp : row -> row.
Definition uda_loss (lambda_u cutoff : Q) (schedule : string) (step total : Z) (logits_l : list row) (y : list Z) (logits_w logits_s : list row) : result Q :=
  do _ <- check_step logits_l y logits_w logits_s;
  let losses := zipw ce logits_l y in
  do sup <-
    (if String.eqb schedule "none" then Ok (Qmean losses)
     else
       do tsa <- tsa_threshold schedule step total (Z.of_nat (width logits_l));
       let p_true := zipw (fun z c => nth (Z.to_nat c) (softmax z) 0) logits_l y in
       Ok (Qmean (zipw Qmult losses (map (fun p => if negb (Qle_bool tsa p) then 1 else 0) p_true))));
  let probs := map sharp logits_w in
  Ok (sup + lambda_u * kept_mean (zipw kl probs logits_s) (mask_of cutoff probs)).

(* the unlabelled loss of NoisyStudentMethod.fit (noisy_student.py 332-350), the teacher's logits being logits_w *)
Definition noisy_unsup (cutoff : Q) (hard : bool) (logits_w logits_s : list row) : Q :=
  let probs := map sharp logits_w in
  let mask := mask_of cutoff probs in
  if hard then kept_mean (zipw ce logits_s (map argmax probs)) mask
  else kept_mean (zipw kl probs logits_s) mask.
End Loss.

(* use_cat (fixmatch.py 174-193): one call for the three batches, cut apart again; without it three calls *)
Section UseCat.
Context {X : Type}.
Variable call : list X -> list row.
Definition three_logits (use_cat : bool) (x_l x_w x_s : list X) : result (list row * list row * list row) :=
  if use_cat then
    let logits := call (x_l ++ x_w ++ x_s) in
    let num_l := length x_l in let num_u := length x_w in
    if negb (Nat.eqb (length logits) (num_l + num_u + length x_s)) then Err InductiveValidationError
    else Ok (firstn num_l logits, firstn num_u (skipn num_l logits), skipn (num_l + num_u) logits)
  else Ok (call x_l, call x_w, call x_s).
End UseCat.
