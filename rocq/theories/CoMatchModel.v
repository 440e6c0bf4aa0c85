(* Model of CoMatch (src/modssc/inductive/methods/comatch.py): the memory bank, distribution alignment, memory-smoothed
   pseudo-labels, pseudo-label graph and contrastive loss, and the training loop around them.  Tensors are lists of rows
   of rationals; softmax, exp, log, the l2 normalisation and cross entropy are arbitrary functions.  The network is an
   arbitrary function of the step and of the rows drawn, so use_cat is one of the cases covered (the slicing is that of
   DeepLossModel.three_logits). *)
From Coq Require Import QArith Qminmax.
From Verif Require Import Prelude QFacts DeepBatchModel DeepLossModel DeepThreshModel DeepEmaModel.
Local Open Scope Z_scope.
Local Open Scope Q_scope.
Local Open Scope list_scope.

(* ------------------------------------------------------------------ a ring buffer *)
(* _queue_feats/_queue_probs with _queue_ptr and _queue_count; _da_queue with _da_ptr and _da_count (comatch.py 139-146) *)
Record ring (A : Type) := { slots : list A; ptr : nat; count : nat }.
Arguments slots {A}. Arguments ptr {A}. Arguments count {A}.
(* torch.zeros((size, ...)) (152-155, 203-205) *)
Definition ring_init {A} (zero : A) (size : nat) : ring A := {| slots := repeat zero size; ptr := 0; count := 0 |}.
(* queue[p : p + len(rows)] = rows *)
Definition write_at {A} (p : nat) (rows l : list A) : list A := firstn p l ++ rows ++ skipn (p + length rows) l.
(* _update_memory (157-180) on the rows (feature, probabilities) *)
Definition ring_push {A} (q : ring A) (rows : list A) : ring A :=
  match rows with
  | [] => q
  | _ =>
      let size := length (slots q) in
      let rows := if Nat.ltb size (length rows) then firstn size rows else rows in
      let n := length rows in
      let stored :=
        if Nat.leb (ptr q + n) size then write_at (ptr q) rows (slots q)
        else let first := (size - ptr q)%nat in
             write_at 0 (skipn first rows) (write_at (ptr q) (firstn first rows) (slots q)) in
      {| slots := stored; ptr := (ptr q + n) mod size; count := Nat.min size (count q + n) |}
  end.
(* queue[:count] *)
Definition ring_stored {A} (q : ring A) : list A := firstn (count q) (slots q).

Definition dot (a b : list Q) : Q := Qsum (zipw Qmult a b).
(* _row_normalize (71-73) on one row *)
Definition row_normalize (l : list Q) : list Q := let d := Qmax (Qsum l) tiny in map (fun x => x / d) l.

(* _build_pseudo_graph (76-84) *)
Definition pseudo_graph (threshold : Q) (probs : list (list Q)) : list (list Q) :=
  let n := length probs in
  map (fun i => row_normalize (map (fun j =>
         let q := if Nat.eqb i j then 1 else dot (nth i probs []) (nth j probs []) in
         if Qle_bool threshold 0 then q else if Qle_bool threshold q then q else q * 0) (seq 0 n))) (seq 0 n).

Section CoMatch.
Variable softmax sharp log_softmax : list Q -> list Q.      (* sharp: softmax of the logits over the temperature (58-62) *)
Variable ce : list Q -> Z -> Q.
Variable argmax : list Q -> Z.
Variable exp log : Q -> Q.
Variable l2 : list Q -> list Q.                             (* _l2_normalize on one row (65-68) *)

Record config := {
  lambda_u : Q; lambda_c : Q; p_cutoff : Q; temperature : Q; contrast_cutoff : Q; smoothing : Q;
  queue_size : nat; min_fill : nat; da_len : nat; dist_align : bool; dist_uniform : bool; hard_label : bool }.
Variable cfg : config.

(* exp(a . b / temperature) *)
Definition near (a b : list Q) : Q := exp (dot a b / temperature cfg).

(* _memory_smooth (182-197); None: the memory does not exist *)
Definition memory_smooth (bank : option (ring (list Q * list Q))) (probs feats : list (list Q)) : list (list Q) :=
  match bank with
  | None => probs
  | Some q =>
      if Nat.eqb (count q) 0 then probs
      else if Nat.ltb 0 (min_fill cfg) && Nat.ltb (count q) (min_fill cfg) then probs
      else if Qle_bool 1 (smoothing cfg) then probs
      else
        let mem := ring_stored q in
        zipw (fun p f =>
          let affinity := row_normalize (map (fun m => near f (fst m)) mem) in
          map (fun c => smoothing cfg * nth c p 0 + (1 - smoothing cfg) * Qsum (zipw (fun a m => a * nth c (snd m) 0) affinity mem)) (seq 0 (length p)))
          probs feats
  end.

(* _contrastive_loss (87-92) *)
Definition contrastive (f0 f1 : list (list Q)) (q : list (list Q)) : Q :=
  Qmean (zipw (fun a qrow => - Qsum (zipw (fun s w => log (s + (1 # 10000000)) * w) (row_normalize (map (near a) f1)) qrow)) f0 q).

(* _dist_align (208-228), _init_da (199-206): the queue of batch means and the aligned rows *)
Definition cm_align (da : option (ring (list Q))) (probs_u probs_l : list (list Q)) : list (list Q) * option (ring (list Q)) :=
  if negb (dist_align cfg) || Nat.eqb (da_len cfg) 0 then (probs_u, da)
  else
    let k := width probs_u in
    let q := match da with Some q => q | None => ring_init (repeat 0 k) (da_len cfg) end in
    let mean_u := col_mean k probs_u in
    let q' := {| slots := write_at (ptr q) [mean_u] (slots q); ptr := (ptr q + 1) mod da_len cfg; count := Nat.min (da_len cfg) (count q + 1) |} in
    let p_model := col_mean k (ring_stored q') in
    let target := if dist_uniform cfg then repeat (1 / inject_Z (Z.of_nat k)) k else col_mean k probs_l in
    let ratio := zipw (fun t p => t / Qmax p (1 # 1000000)) target p_model in
    (map (fun p => row_normalize (zipw Qmult p ratio)) probs_u, Some q').

(* what the network gives in a step: logits and features of the labelled, weak and two strong batches *)
Record outputs := {
  logits_l : list (list Q); feats_l : list (list Q); logits_w : list (list Q); feats_w : list (list Q);
  logits_s0 : list (list Q); feats_s0 : list (list Q); logits_s1 : list (list Q); feats_s1 : list (list Q) }.
Definition state : Type := (option (ring (list Q * list Q)) * option (ring (list Q)))%type.

(* the checks of 475-489, the dimensions being two *)
Definition cm_check (o : outputs) (y : list Z) : result unit :=
  if negb (same_shape (logits_w o) (logits_s0 o)) || negb (same_shape (logits_w o) (logits_s1 o)) then Err InductiveValidationError
  else if negb (Nat.eqb (width (logits_w o)) (width (logits_l o))) then Err InductiveValidationError
  else if negb (Nat.eqb (width (feats_w o)) (width (feats_s0 o))) || negb (Nat.eqb (width (feats_w o)) (width (feats_s1 o))) then Err InductiveValidationError
  else if negb (Nat.eqb (width (feats_l o)) (width (feats_w o))) then Err InductiveValidationError
  else if existsb (fun c => (c <? 0)%Z || (Z.of_nat (width (logits_l o)) <=? c)%Z) y then Err InductiveValidationError
  else Ok tt.

(* the rows that enter the memory after a step (527-531) *)
Definition bank_rows (o : outputs) (y : list Z) (aligned : list (list Q)) : list (list Q * list Q) :=
  combine (map l2 (feats_w o) ++ map l2 (feats_l o)) (aligned ++ map (one_hot (width (logits_l o))) y).

(* one step of CoMatchMethod.fit (491-573) *)
Definition cm_step (st : state) (o : outputs) (y : list Z) : result (Q * state) :=
  do _ <- cm_check o y;
  let '(bank0, da0) := st in
  let bank := match bank0 with
              | None => if Nat.eqb (queue_size cfg) 0 then None
                        else Some (ring_init (repeat 0 (width (feats_w o)), repeat 0 (width (logits_l o))) (queue_size cfg))
              | Some q => Some q
              end in
  let sup := ce_mean ce (logits_l o) y in
  let '(probs, da) := cm_align da0 (map sharp (logits_w o)) (map softmax (logits_l o)) in
  let smoothed := memory_smooth bank probs (map l2 (feats_w o)) in
  let mask := mask_of (p_cutoff cfg) smoothed in
  let graph := pseudo_graph (contrast_cutoff cfg) smoothed in
  let bank' := match bank with None => None | Some q => Some (ring_push q (bank_rows o y probs)) end in
  let losses := if hard_label cfg then zipw ce (logits_s0 o) (map argmax smoothed)
                else zipw (fun z t => - Qsum (zipw Qmult t (log_softmax z))) (logits_s0 o) smoothed in
  let unsup := masked_mean losses mask in
  let contrast := contrastive (map l2 (feats_s0 o)) (map l2 (feats_s1 o)) graph in
  Ok (sup + lambda_u cfg * unsup + lambda_c cfg * contrast, (bank', da)).

Section Fit.
Context {St : Type}.
Variable G : Gen St.
Variable net : Z -> list nat -> list nat -> outputs.    (* step, labelled rows, unlabelled rows *)
Variable y : list Z.

Fixpoint cm_steps (t : Z) (steps : list (list nat * list nat)) (st : state) : result (list Q) :=
  match steps with
  | [] => Ok []
  | (il, iu) :: rest =>
      do ' (loss, st1) <- cm_step st (net t il iu) (map (fun i => nth i y 0%Z) il);
      do losses <- cm_steps (t + 1) rest st1;
      Ok (loss :: losses)
  end.

Definition in_unit (x : Q) : bool := Qle_bool 0 x && Qle_bool x 1.
(* the checks on the numbers (352-371); those on batch size and epochs are made in fit_batches *)
Definition cm_numbers : result unit :=
  if negb (Qle_bool 0 (lambda_u cfg)) then Err InductiveValidationError
  else if negb (Qle_bool 0 (lambda_c cfg)) then Err InductiveValidationError
  else if negb (in_unit (p_cutoff cfg)) then Err InductiveValidationError
  else if Qle_bool (temperature cfg) 0 then Err InductiveValidationError
  else if negb (in_unit (contrast_cutoff cfg)) then Err InductiveValidationError
  else if negb (in_unit (smoothing cfg)) then Err InductiveValidationError
  else if Nat.ltb (queue_size cfg) (min_fill cfg) then Err InductiveValidationError
  else Ok tt.

(* CoMatchMethod.fit (230-582): sizes of X_l, X_u_w and the two strong views; the memory starts empty in every fit
   (373-380).  The negative sizes that 364-371 refuse cannot be written here. *)
Definition cm_fit (n_l n_u n_s0 n_s1 : nat) (b max_epochs : Z) (sl su : St) : result (list Q) :=
  if Nat.eqb n_l 0 || Nat.eqb n_u 0 || Nat.eqb n_s0 0 || Nat.eqb n_s1 0 then Err InductiveValidationError
  else if negb (Nat.eqb n_u n_s0) || negb (Nat.eqb n_u n_s1) then Err InductiveValidationError
  else
    do _ <- cm_numbers;
    do epochs <- fit_batches G n_l n_u b max_epochs sl su;
    cm_steps 0 (concat epochs) (None, None).
End Fit.
End CoMatch.
