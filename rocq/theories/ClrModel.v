(* Model of SimCLRv2 (src/modssc/inductive/methods/simclr_v2.py): contrastive pretraining, transfer of the weights, fine-tuning
   and distillation over bundles that are shared, mutable objects, the losses of the three stages, and prediction.
   Weights are of an arbitrary type; the networks are arbitrary functions of the weights, of the mode and of the rows they are
   given; an optimizer step is an arbitrary function of the weights and of what is differentiated.  Buffers, optimizer state
   and process-wide random state count as part of the weights.  Simplification: two different model objects have no parameter
   in common. *)
From Coq Require Import QArith Qminmax.
From Verif Require Import Prelude QFacts DeepBatchModel DeepLossModel CoMatchModel DasoModel.
Local Open Scope Z_scope.
Local Open Scope Q_scope.
Local Open Scope list_scope.

(* a TorchModelBundle: the bundle object and its model object *)
Record bundle := { b_id : nat; b_model : nat }.
(* a model object: its weights, and whether requires_grad is False for all parameters *)
Record cell (M : Type) := { c_weights : M; c_frozen : bool }.
Arguments c_weights {M}. Arguments c_frozen {M}.
Definition heap (M : Type) := nat -> cell M.
Definition store {M} (h : heap M) (m : nat) (c : cell M) : heap M := fun i => if Nat.eqb i m then c else h i.

Inductive view := Labelled | Weak | Strong.
(* what a step differentiates: the loss that [clr_value] computes as a function of the weights *)
Inductive objective :=
| Contrast (idx : list nat)
| Supervised (il : list nat)
| Distil (iu : list nat) (targets : list (list Q)) (il : option (list nat)).

Record clr_config := {
  cl_pre : option bundle; cl_fine : option bundle; cl_student : option bundle; cl_temp : Q; cl_dtemp : Q; cl_alpha : Q; cl_b : Z;
  cl_pe : Z; cl_fe : Z; cl_de : Z; cl_transfer : bool; cl_labelled : bool }.

Section Clr.
Context {M St : Type}.
Variable G : Gen St.
Variable manual_seed : Z -> St.
Variable proj : nat -> M -> view -> list nat -> list (list Q).              (* bundle, weights, rows *)
Variable logits : nat -> bool -> M -> view -> list nat -> list (list Q).    (* bundle, model.training, weights, rows *)
Variable optim : nat -> M -> objective -> M.                                (* optimizer.step() of a bundle *)
Variable load : M -> M -> option M.                                         (* load_state_dict(..., strict=False); None: an error *)
Variable shares : nat -> nat -> bool.                                       (* two models have a parameter in common *)
Variable binds : nat -> bool.                                               (* the functions in bundle.meta are methods of its model, or there are none *)
Variable softmax log_softmax : list Q -> list Q.
Variable ce : list Q -> Z -> Q.
Variable lse : list Q -> Q.                                                 (* torch.logsumexp of a row *)
Variable norm : list Q -> Q.
Variable y : list Z.
Variable cfg : clr_config.

(* _nt_xent_loss (simclr_v2.py 130-148); the dimension check is left out *)
Definition similarity (t : Q) (z : list (list Q)) (i j : nat) : Q :=
  if Nat.eqb i j then - (1000000000) else dot (unit_row norm (nth i z [])) (unit_row norm (nth j z [])) / t.
Definition nt_xent (t : Q) (z : list (list Q)) : result Q :=
  let n := length z in
  if Qle_bool t 0 then Err InductiveValidationError
  else if Nat.ltb n 2 || negb (Nat.eqb (n mod 2) 0) then Err InductiveValidationError
  else
    let pairs := (n / 2)%nat in
    let pos := map (fun i => i + pairs)%nat (seq 0 pairs) ++ seq 0 pairs in
    let sim := map (fun i => map (similarity t z i) (seq 0 n)) (seq 0 n) in
    Ok (- Qmean (zipw (fun i p => nth p (nth i sim []) 0 - lse (nth i sim [])) (seq 0 n) pos)).
(* _distill_loss (simclr_v2.py 151-165); the targets are computed by the caller below *)
Definition scale (t : Q) (z : list (list Q)) : list (list Q) := map (map (fun x => x / t)) z.
Definition distill_targets (t : Q) (lt : list (list Q)) : list (list Q) := map softmax (scale t lt).
Definition distill_loss (t : Q) (ls targets : list (list Q)) : Q :=
  Qmean (zipw (fun p z => - Qsum (zipw Qmult p (log_softmax z))) targets (scale t ls)).

Definition labels_of (il : list nat) : list Z := map (fun i => nth i y 0%Z) il.
Definition labels_fit (k : nat) (l : list Z) : bool := negb (existsb (fun c => (c <? 0)%Z || (Z.of_nat k <=? c)%Z) l).

(* the value that is differentiated (simclr_v2.py 362-364, 411, 495-519) *)
Definition clr_value (b : nat) (o : objective) (w : M) : result Q :=
  match o with
  | Contrast idx => nt_xent (cl_temp cfg) (proj b w Weak idx ++ proj b w Strong idx)
  | Supervised il => Ok (ce_mean ce (logits b true w Labelled il) (labels_of il))
  | Distil iu targets None => Ok (distill_loss (cl_dtemp cfg) (logits b true w Strong iu) targets)
  | Distil iu targets (Some il) =>
      Ok ((1 - cl_alpha cfg) * ce_mean ce (logits b true w Labelled il) (labels_of il) + cl_alpha cfg * distill_loss (cl_dtemp cfg) (logits b true w Strong iu) targets)
  end.

(* loss.backward() and optimizer.step(): a loss without a parameter that requires a gradient is a RuntimeError *)
Definition train_on (b : bundle) (o : objective) (h : heap M) : heap M * result unit :=
  let c := h (b_model b) in
  if c_frozen c then (h, Err RuntimeError)
  else (store h (b_model b) {| c_weights := optim (b_id b) (c_weights c) o; c_frozen := false |}, Ok tt).
(* a loop whose body may raise *)
Fixpoint run {A} (f : A -> heap M -> heap M * result unit) (l : list A) (h : heap M) : heap M * result unit :=
  match l with
  | [] => (h, Ok tt)
  | a :: r => let '(h1, x) := f a h in match x with Ok _ => run f r h1 | Err e => (h1, Err e) end
  end.
(* one step of pretraining (simclr_v2.py 350-373) *)
Definition pre_step (b : bundle) (idx : list nat) (h : heap M) : heap M * result unit :=
  let w := c_weights (h (b_model b)) in
  let z1 := proj (b_id b) w Weak idx in let z2 := proj (b_id b) w Strong idx in
  if negb (same_shape z1 z2) then (h, Err InductiveValidationError)
  else match nt_xent (cl_temp cfg) (z1 ++ z2) with Err e => (h, Err e) | Ok _ => train_on b (Contrast idx) h end.
(* one step of fine-tuning (simclr_v2.py 406-420) *)
Definition fine_step (b : bundle) (il : list nat) (h : heap M) : heap M * result unit :=
  let l := logits (b_id b) true (c_weights (h (b_model b))) Labelled il in
  if negb (labels_fit (width l) (labels_of il)) then (h, Err InductiveValidationError) else train_on b (Supervised il) h.
(* one step of distillation (simclr_v2.py 480-530); [teacher]: the weights, mode and bundle behind the teacher's logits *)
Definition distil_step (b : bundle) (teacher : heap M -> nat * bool * M) (s : list nat * option (list nat)) (h : heap M) : heap M * result unit :=
  let '(iu, il) := s in let w := c_weights (h (b_model b)) in
  let '(tb, mode, tw) := teacher h in
  let lt := logits tb mode tw Weak iu in let ls := logits (b_id b) true w Strong iu in
  if negb (same_shape lt ls) then (h, Err InductiveValidationError)
  else
    let o := Distil iu (distill_targets (cl_dtemp cfg) lt) il in
    match il with
    | None => train_on b o h
    | Some l => if negb (labels_fit (width (logits (b_id b) true w Labelled l)) (labels_of l)) then (h, Err InductiveValidationError) else train_on b o h
    end.

(* simclr_v2.py 266-310: the numbers and sizes; n_w, n_s: the rows of X_u_w (or X_u) and of X_u_s, if given *)
Definition clr_check (n_l : nat) (n_w n_s : option nat) : result unit :=
  if (cl_b cfg <=? 0)%Z then Err InductiveValidationError
  else if (cl_pe cfg <? 0)%Z || (cl_fe cfg <? 0)%Z || (cl_de cfg <? 0)%Z then Err InductiveValidationError
  else if (cl_pe cfg =? 0)%Z && (cl_fe cfg =? 0)%Z && (cl_de cfg =? 0)%Z then Err InductiveValidationError
  else if negb (in_unit (cl_alpha cfg)) then Err InductiveValidationError
  else if Qle_bool (cl_temp cfg) 0 then Err InductiveValidationError
  else if Qle_bool (cl_dtemp cfg) 0 then Err InductiveValidationError
  else
    do _ <- (if (0 <? cl_pe cfg)%Z || (0 <? cl_de cfg)%Z then
               match n_w with
               | None => Err InductiveValidationError
               | Some w => if Nat.eqb w 0 then Err InductiveValidationError
                           else if negb (Nat.eqb w (match n_s with Some s => s | None => w end)) then Err InductiveValidationError else Ok tt
               end
             else Ok tt);
    if ((0 <? cl_fe cfg)%Z || cl_labelled cfg) && Nat.eqb n_l 0 then Err InductiveValidationError else Ok tt.
(* value or other: spec.pretrain_bundle or spec.finetune_bundle *)
Definition or_else {A} (a c : option A) : option A := match a with Some _ => a | None => c end.
(* simclr_v2.py 312-333 *)
Definition clr_bundles : result (option bundle * option bundle) :=
  do pre <- (if (0 <? cl_pe cfg)%Z then match or_else (cl_pre cfg) (cl_fine cfg) with None => Err InductiveValidationError | p => Ok p end else Ok None);
  do fine <- (if (0 <? cl_fe cfg)%Z || (0 <? cl_de cfg)%Z then match or_else (cl_fine cfg) pre with None => Err InductiveValidationError | p => Ok p end else Ok None);
  Ok (pre, fine).
(* the batches of a stage: all epochs one after the other *)
Definition stage_batches (n : nat) (epochs steps seed : Z) : result (list (list nat)) :=
  do ' (es, _) <- epoch_batches G (Z.to_nat epochs) n (cl_b cfg) steps (manual_seed seed); Ok (concat es).

(* continue with the heap after an exception-free stage *)
Definition and_then {A B} (x : heap M * result A) (f : A -> heap M -> heap M * result B) : heap M * result B :=
  match snd x with Ok a => f a (fst x) | Err e => (fst x, Err e) end.
(* simclr_v2.py 335-373 *)
Definition pretrain_stage (n_u : nat) (seed : Z) (pre : option bundle) (h : heap M) : heap M * result unit :=
  match pre with
  | Some b => if (0 <? cl_pe cfg)%Z then
                match stage_batches n_u (cl_pe cfg) (num_batches (Z.of_nat n_u) (cl_b cfg)) seed with Err e => (h, Err e) | Ok bs => run (pre_step b) bs h end
              else (h, Ok tt)
  | None => (h, Ok tt)
  end.
(* simclr_v2.py 375-389 *)
Definition transfer_stage (pre fine : option bundle) (h : heap M) : heap M * result unit :=
  match pre, fine with
  | Some p, Some f =>
      if cl_transfer cfg && negb (Nat.eqb (b_id p) (b_id f)) && (0 <? cl_pe cfg)%Z then
        match load (c_weights (h (b_model f))) (c_weights (h (b_model p))) with
        | None => (h, Err InductiveValidationError)
        | Some w => (store h (b_model f) {| c_weights := w; c_frozen := c_frozen (h (b_model f)) |}, Ok tt)
        end
      else (h, Ok tt)
  | _, _ => (h, Ok tt)
  end.
(* simclr_v2.py 391-420 *)
Definition fine_stage (n_l : nat) (seed : Z) (fine : option bundle) (h : heap M) : heap M * result unit :=
  match fine with
  | Some b => if (0 <? cl_fe cfg)%Z then
                match stage_batches n_l (cl_fe cfg) (num_batches (Z.of_nat n_l) (cl_b cfg)) (seed + 1) with Err e => (h, Err e) | Ok bs => run (fine_step b) bs h end
              else (h, Ok tt)
  | None => (h, Ok tt)
  end.
(* simclr_v2.py 422-533: with no student bundle the teacher is a copy of the model as it is now, unless its functions in meta
   (_rebind_meta, 111-127) still run the model itself; with one the teacher is the fine-tuned model, whose parameters are
   frozen for good (445-446) *)
Definition distil_batches (n_l n_u : nat) (seed : Z) : result (list (list nat * option (list nat))) :=
  let steps_u := num_batches (Z.of_nat n_u) (cl_b cfg) in
  let steps := if cl_labelled cfg then Z.max steps_u (num_batches (Z.of_nat n_l) (cl_b cfg)) else Z.max steps_u 1 in
  do us <- stage_batches n_u (cl_de cfg) steps (seed + 2);
  if cl_labelled cfg then do ls <- stage_batches n_l (cl_de cfg) steps (seed + 3); Ok (combine us (map Some ls))
  else Ok (map (fun u => (u, None)) us).
Definition distil_stage (n_l n_u : nat) (seed : Z) (fine : option bundle) (h : heap M) : heap M * result unit :=
  match fine with
  | Some f =>
      if (0 <? cl_de cfg)%Z then
        match distil_batches n_l n_u seed with
        | Err e => (h, Err e)
        | Ok bs =>
            match cl_student cfg with
            | None =>
                let copy := c_weights (h (b_model f)) in
                run (distil_step f (fun h1 => if binds (b_id f) then (b_id f, false, copy) else (b_id f, true, c_weights (h1 (b_model f))))) bs h
            | Some s =>
                if Nat.eqb (b_model s) (b_model f) || shares (b_model s) (b_model f) then (h, Err InductiveValidationError)
                else
                  let h1 := store h (b_model f) {| c_weights := c_weights (h (b_model f)); c_frozen := true |} in
                  run (distil_step s (fun h2 => (b_id f, false, c_weights (h2 (b_model f))))) bs h1
            end
        end
      else (h, Ok tt)
  | None => (h, Ok tt)
  end.
(* simclr_v2.py 535-540 *)
Definition final_bundle (pre fine : option bundle) : option bundle :=
  match cl_student cfg with
  | Some s => if (0 <? cl_de cfg)%Z then Some s else if (0 <? cl_fe cfg)%Z then fine else pre
  | None => if (0 <? cl_fe cfg)%Z then fine else pre
  end.
(* SimCLRv2Method.fit (simclr_v2.py 219-546): self._bundle, and the models afterwards, also after an exception.  Checks of
   types and devices are left out. *)
Definition clr_fit (n_l : nat) (n_w n_s : option nat) (seed : Z) (h : heap M) : heap M * result (option bundle) :=
  match clr_check n_l n_w n_s with
  | Err e => (h, Err e)
  | Ok _ =>
      match clr_bundles with
      | Err e => (h, Err e)
      | Ok (pre, fine) =>
          let n_u := match n_w with Some w => w | None => O end in
          and_then (pretrain_stage n_u seed pre h) (fun _ h1 =>
          and_then (transfer_stage pre fine h1) (fun _ h2 =>
          and_then (fine_stage n_l seed fine h2) (fun _ h3 =>
          and_then (distil_stage n_l n_u seed fine h3) (fun _ h4 => (h4, Ok (final_bundle pre fine))))))
      end
  end.
End Clr.

(* predict_proba (simclr_v2.py 548-590) on a tensor: like the shared loop, but an input without rows is given to the model as it is *)
Section Predict.
Context {X R P : Type}.
Variable call : bool -> list X -> option (list R).
Variable softmax : R -> P.
Definition clr_predict (fitted training : bool) (xs : list X) (b : Z) : result (list P) * bool :=
  if negb fitted then (Err RuntimeError, training)
  else match py_range (lenZ xs) b with
       | Err e => (Err e, false)
       | Ok starts =>
           match (match starts with [] => match call false [] with None => Err InductiveValidationError | Some out => Ok out end | _ => predict_loop call xs b starts end) with
           | Err e => (Err e, false)
           | Ok l => (Ok (map softmax l), training)
           end
       end.
End Predict.
