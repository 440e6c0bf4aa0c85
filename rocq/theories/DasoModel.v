(* Model of DASO (src/modssc/inductive/methods/daso.py): the class queues and prototypes, the blending of linear and semantic
   pseudo-labels, the estimate of the class distribution, the semantic alignment loss and the training loop around them.
   Tensors are lists of rows of rationals; softmax, log_softmax, log, the power 1 / t_dist, the l2 norm and cross entropy are
   arbitrary functions.  The network is an arbitrary function of the step and of the rows drawn, as in CoMatchModel; the
   exponential average of its weights is that of DeepEmaModel.update_teacher. *)
From Coq Require Import QArith Qminmax.
From Verif Require Import Prelude QFacts DeepBatchModel DeepLossModel DeepThreshModel DeepEmaModel CoMatchModel.
Local Open Scope Z_scope.
Local Open Scope Q_scope.
Local Open Scope list_scope.

(* ------------------------------------------------------------------ which network gives the features of the prototypes *)
(* an entry of bundle.meta: missing or not callable, callable without a model argument, callable with one *)
Inductive extractor := NoExtractor | Plain | WithModel.
(* the weights that are used: the network's, the averaged ones, or those the callable was written with *)
Inductive source := FromModel | FromEma | FromClosure.
(* _forward_features (daso.py 130-167) with _call_feature_extractor (41-53): forward_features(_ema) or its alias
   feature_extractor(_ema); a plain forward_features is taken to run the network *)
Definition feature_source (use_ema : bool) (plain ema : extractor) : source :=
  if negb use_ema then FromModel
  else match ema with
       | WithModel => FromEma
       | Plain => FromClosure
       | NoExtractor => match plain with WithModel => FromEma | Plain => FromModel | NoExtractor => FromEma end
       end.

Section Daso.
Variable softmax log_softmax : list Q -> list Q.
Variable ce : list Q -> Z -> Q.
Variable argmax : list Q -> Z.
Variable pow : Q -> Q.                       (* x.pow(1 / t_dist) *)
Variable log : Q -> Q.
Variable norm : list Q -> Q.                 (* row.norm() *)

Record daso_config := {
  ds_lambda_u : Q; ds_lambda_align : Q; ds_cutoff : Q; ds_t_proto : Q; ds_t_dist : Q; ds_queue : Z; ds_pretrain : Z; ds_period : Z;
  ds_decay : Q; ds_use_ema : bool; ds_dist_aware : bool; ds_alpha : Q; ds_hard : bool }.
Variable cfg : daso_config.

(* what the network gives in a step, and the features of the labelled batch for the prototypes *)
Record daso_out := { do_l : list (list Q); do_w : list (list Q); do_fw : list (list Q); do_s : list (list Q); do_fs : list (list Q); do_fl : list (list Q) }.

(* daso.py lines 438-448: feat_lb[y_lb == c], torch.cat, [-queue_size:] *)
Definition of_class (c : Z) (y : list Z) (fl : list (list Q)) : list (list Q) := map snd (filter (fun p => (fst p =? c)%Z) (combine y fl)).
Definition push_class (c : Z) (y : list Z) (fl queue : list (list Q)) : list (list Q) :=
  match of_class c y fl with
  | [] => queue
  | rows => let q := queue ++ rows in
            if (ds_queue cfg <? lenZ q)%Z then skipn (length q - Z.to_nat (ds_queue cfg)) q else q
  end.
(* the loop over the classes; the number of classes is that of the first step *)
Definition push_all (y : list Z) (fl : list (list Q)) (queues : list (list (list Q))) : list (list (list Q)) :=
  map (fun p => push_class (Z.of_nat (fst p)) y fl (snd p)) (combine (seq 0 (length queues)) queues).
(* daso.py lines 450-459 *)
Definition prototype (d : nat) (queue : list (list Q)) : list Q := match queue with [] => repeat 0 d | _ => col_mean d queue end.
(* _cosine_similarity (daso.py 72-78) of one row with the prototypes, over t_proto, and softmax (463-466) *)
Definition unit_row (r : list Q) : list Q := map (fun x => x / Qmax (norm r) tiny) r.
Definition semantic (protos : list (list Q)) (f : list Q) : list Q := softmax (map (fun p => dot (unit_row f) (unit_row p) / ds_t_proto cfg) protos).
(* daso.py lines 477-481 *)
Definition mixing (m_hat : list Q) : list Q :=
  let v := map (fun x => pow (Qmax x tiny)) m_hat in
  let top := Qmax (row_max v) tiny in
  map (fun x => x / top) v.
(* daso.py lines 472-486: the target of one row *)
Definition interp (a : Q) (p q : list Q) : list Q := zipw (fun x y => (1 - a) * x + a * y) p q.
Definition target (pretraining : bool) (m_hat p q : list Q) : list Q :=
  if pretraining then p
  else if ds_dist_aware cfg then interp (nth (Z.to_nat (argmax p)) (mixing m_hat) 0) p q
  else interp (ds_alpha cfg) p q.

(* the checks of lines 405-417 and 436, the dimensions being two and every output having one row per sample *)
Definition daso_check (o : daso_out) (y : list Z) : result unit :=
  if negb (same_shape (do_w o) (do_s o)) then Err InductiveValidationError
  else if negb (Nat.eqb (width (do_w o)) (width (do_l o))) then Err InductiveValidationError
  else if negb (same_shape (do_fw o) (do_fs o)) then Err InductiveValidationError
  else if existsb (fun c => (c <? 0)%Z || (Z.of_nat (width (do_l o)) <=? c)%Z) y then Err InductiveValidationError
  else if negb (Nat.eqb (width (do_fl o)) (width (do_fw o))) then Err InductiveValidationError
  else Ok tt.

(* queue, m_hat and dist_accum; None before the first step (daso.py 354-356) *)
Record daso_state := { dq : list (list (list Q)); dm : list Q; da : list Z }.
Definition daso_init (k : nat) : daso_state := {| dq := repeat [] k; dm := repeat (1 / inject_Z (Z.of_nat k)) k; da := repeat 0%Z k |}.
(* daso.py lines 541-550 *)
Definition count_labels (t : Z) (k : nat) (labels : list Z) (m : list Q) (acc : list Z) : list Q * list Z :=
  let acc := zipw Z.add acc (bincount k labels) in
  if ((t + 1) mod ds_period cfg =? 0)%Z
  then (let total := fold_right Z.add 0%Z acc in if (0 <? total)%Z then map (fun x => inject_Z x / inject_Z total) acc else m, map (fun _ => 0%Z) acc)
  else (m, acc).
(* one step of DASOMethod.fit (daso.py 378-552) *)
Definition daso_step (t : Z) (st : option daso_state) (o : daso_out) (y : list Z) : result (Q * daso_state) :=
  do _ <- daso_check o y;
  let k := width (do_l o) in
  let d := width (do_fw o) in
  let s := match st with Some s => s | None => daso_init k end in
  let queues := push_all y (do_fl o) (dq s) in
  let protos := map (prototype d) queues in
  let sup := ce_mean ce (do_l o) y in
  let p_hat := map softmax (do_w o) in
  let q_hat := map (semantic protos) (do_fw o) in
  let pretraining := (t <? ds_pretrain cfg)%Z in
  let targets := zipw (target pretraining (dm s)) p_hat q_hat in
  let mask := mask_of (ds_cutoff cfg) targets in
  let losses := if ds_hard cfg then zipw ce (do_s o) (map argmax targets)
                else zipw (fun z p => - Qsum (zipw Qmult p (log_softmax z))) (do_s o) targets in
  let unsup := masked_mean losses mask in
  let align := if pretraining || Qeq_bool (ds_lambda_align cfg) 0 then 0
               else Qmean (zipw (fun q f => - Qsum (zipw (fun a b => a * log (Qmax b tiny)) q (semantic protos f))) q_hat (do_fs o)) in
  let '(m, acc) := count_labels t k (map argmax targets) (dm s) (da s) in
  Ok (sup + ds_lambda_u cfg * unsup + ds_lambda_align cfg * align, {| dq := queues; dm := m; da := acc |}).

Section Fit.
Context {St : Type}.
Variable G : Gen St.
Variable net : Z -> list nat -> list nat -> daso_out.                       (* the outputs but for do_fl, which is replaced *)
Variable feats : Z -> list tensor -> list nat -> list (list Q).             (* the features of labelled rows under some weights *)
Variable student : Z -> list tensor.                                        (* the weights when t steps have been made *)
Variable closure : Z -> list tensor.
Variable plain ema : extractor.
Variable y : list Z.
Definition with_feats (o : daso_out) (f : list (list Q)) : daso_out :=
  {| do_l := do_l o; do_w := do_w o; do_fw := do_fw o; do_s := do_s o; do_fs := do_fs o; do_fl := f |}.
Definition weights_for (t : Z) (teacher : list tensor) : list tensor :=
  match feature_source (ds_use_ema cfg) plain ema with FromModel => student t | FromEma => teacher | FromClosure => closure t end.
Fixpoint daso_steps (t : Z) (steps : list (list nat * list nat)) (teacher : list tensor) (st : option daso_state) : result (list Q) :=
  match steps with
  | [] => Ok []
  | (il, iu) :: rest =>
      let o := with_feats (net t il iu) (feats t (weights_for t teacher) il) in
      do ' (loss, st1) <- daso_step t st o (map (fun i => nth i y 0%Z) il);
      do losses <- daso_steps (t + 1) rest (update_teacher (ds_decay cfg) (student (t + 1)%Z) teacher) (Some st1);
      Ok (loss :: losses)
  end.
(* daso.py lines 311-336; those on batch size and epochs are made in fit_batches *)
Definition daso_numbers : result unit :=
  if negb (Qle_bool 0 (ds_lambda_u cfg)) then Err InductiveValidationError
  else if negb (Qle_bool 0 (ds_lambda_align cfg)) then Err InductiveValidationError
  else if negb (in_unit (ds_cutoff cfg)) then Err InductiveValidationError
  else if Qle_bool (ds_t_proto cfg) 0 then Err InductiveValidationError
  else if Qle_bool (ds_t_dist cfg) 0 then Err InductiveValidationError
  else if (ds_queue cfg <=? 0)%Z then Err InductiveValidationError
  else if (ds_pretrain cfg <? 0)%Z then Err InductiveValidationError
  else if (ds_period cfg <=? 0)%Z then Err InductiveValidationError
  else if negb (in_unit (ds_decay cfg)) then Err InductiveValidationError
  else if negb (in_unit (ds_alpha cfg)) then Err InductiveValidationError
  else Ok tt.
(* DASOMethod.fit (daso.py 240-557): sizes of X_l, X_u_w and X_u_s; the given ema_model or a copy of the model (338-347); the
   averaged weights start as those of the model *)
Definition daso_fit (ema0 : list tensor) (same : bool) (n_l n_u n_s : nat) (b max_epochs : Z) (sl su : St) : result (list Q) :=
  if Nat.eqb n_l 0 || Nat.eqb n_u 0 || Nat.eqb n_s 0 then Err InductiveValidationError
  else if negb (Nat.eqb n_u n_s) then Err InductiveValidationError
  else
    do epochs <- fit_batches G n_l n_u b max_epochs sl su;
    do _ <- daso_numbers;
    do _ <- (if ds_use_ema cfg then check_teacher same (student 0%Z) ema0 else Ok tt);
    daso_steps 0 (concat epochs) (student 0%Z) None.
End Fit.
End Daso.
