From Coq Require Import QArith Qminmax Qround Permutation Lqa Lia ZifyBool ZifyNat.
From Verif Require Import Prelude QFacts DeepBatchModel DeepBatchSpec DeepBatchProofs DeepBatchProps DeepLossModel DeepLossSpec DeepLossProofs DeepLossProps CoMatchModel CoMatchSpec DasoModel DasoSpec ClrModel ClrSpec ClrProofs ClrFitProofs ClrLossProofs.
Local Open Scope Z_scope.
Local Open Scope Q_scope.
Local Open Scope list_scope.

(* ------------------------------------------------------------------ C140: the stages of a fit *)
(* the networks give one row per input row, of fixed width, and the labels are classes *)
Definition clr_networks_ok {M} (n_l k : nat) (y : list Z) (proj : nat -> M -> view -> list nat -> list (list Q)) (logits : nat -> bool -> M -> view -> list nat -> list (list Q)) : Prop :=
  (exists d, forall b w v idx, table (length idx) d (proj b w v idx)) /\ (forall b tr w v idx, table (length idx) k (logits b tr w v idx)) /\
  (forall i, (i < n_l)%nat -> (0 <= nth i y 0 < Z.of_nat k)%Z).

(* C140: a fit that returns has gone through the stages in order - contrastive pretraining on unlabelled rows, transfer of the
   weights, fine-tuning on labelled rows, distillation - each with as many epochs as asked, each epoch using the rows evenly, each
   changing the weights of its own model only; and the settings, the data and the bundles it was given are in order. *)
Theorem C140_stages : forall M St (G : Gen St) manual_seed proj logits optim load shares binds softmax lse norm y cfg n_l n_w n_s seed (h h' : heap M) final k,
  gen_ok G -> clr_networks_ok n_l k y proj logits ->
  clr_fit G manual_seed proj logits optim load shares binds softmax lse norm y cfg n_l n_w n_s seed h = (h', Ok final) ->
  (clr_numbers_ok cfg /\ clr_data_ok cfg n_l n_w n_s /\ clr_bundles_ok cfg /\ clr_student_ok shares cfg) /\
  exists n_u h1 h2 h3, (n_u = match n_w with Some n => n | None => O end) /\
    pretrains optim cfg n_u h h1 /\ transfers load cfg h1 h2 /\ tunes optim cfg n_l h2 h3 /\ distils logits optim binds softmax cfg n_l n_u h3 h'.
Proof.
  intros M St G ms proj logits optim load shares binds softmax lse norm y cfg n_l n_w n_s seed h h' final k OG ((d & OP) & OL & OY) E.
  pose proof (fit_spec G ms proj logits optim load shares binds softmax lse norm y cfg n_l d k OG OP OL OY n_w n_s seed h) as F. rewrite E in F.
  destruct F as (A & B & C & D & _ & h1 & h2 & h3 & S1 & S2 & S3 & S4). split; [auto|]. exists (rows_u n_w), h1, h2, h3. auto.
Qed.
(* C140: a fit fails only for settings, data or bundles that are not in order - then nothing was trained -, weights that cannot be
   transferred, a student that is its own teacher, or a frozen model. *)
Theorem C140_rejects : forall M St (G : Gen St) manual_seed proj logits optim load shares binds softmax lse norm y cfg n_l n_w n_s seed (h h' : heap M) e k,
  gen_ok G -> clr_networks_ok n_l k y proj logits ->
  clr_fit G manual_seed proj logits optim load shares binds softmax lse norm y cfg n_l n_w n_s seed h = (h', Err e) ->
  (e = InductiveValidationError /\ h' = h /\ ~ (clr_numbers_ok cfg /\ clr_data_ok cfg n_l n_w n_s /\ clr_bundles_ok cfg)) \/
  (e = InductiveValidationError /\ exists w w', load w w' = None) \/
  (e = InductiveValidationError /\ ~ clr_student_ok shares cfg) \/
  (e = RuntimeError /\ exists m, c_frozen (h m) = true).
Proof.
  intros M St G ms proj logits optim load shares binds softmax lse norm y cfg n_l n_w n_s seed h h' e k OG ((d & OP) & OL & OY) E.
  pose proof (fit_spec G ms proj logits optim load shares binds softmax lse norm y cfg n_l d k OG OP OL OY n_w n_s seed h) as F. now rewrite E in F.
Qed.
(* C140: the bundle that predicts is the one whose model was trained last, if there was fine-tuning, or no distillation, or a
   student bundle, or only one bundle. *)
Theorem C140_predictor : forall M St (G : Gen St) manual_seed proj logits optim load shares binds softmax lse norm y cfg n_l n_w n_s seed (h h' : heap M) final k,
  gen_ok G -> clr_networks_ok n_l k y proj logits ->
  clr_fit G manual_seed proj logits optim load shares binds softmax lse norm y cfg n_l n_w n_s seed h = (h', Ok final) ->
  (0 < cl_fe cfg)%Z \/ cl_de cfg = 0%Z \/ cl_student cfg <> None \/ pretrained cfg = tuned cfg ->
  exists b, final = Some b /\ last_trained cfg = Some b.
Proof.
  intros M St G ms proj logits optim load shares binds softmax lse norm y cfg n_l n_w n_s seed h h' final k OG ((d & OP) & OL & OY) E H.
  pose proof (fit_spec G ms proj logits optim load shares binds softmax lse norm y cfg n_l d k OG OP OL OY n_w n_s seed h) as F. rewrite E in F.
  destruct F as (A & B & C & D & -> & _). rewrite (final_last cfg A H). destruct (last_some cfg A C) as (b & X). exists b. auto.
Qed.

(* a network with one weight *)
Definition ex_net (w : Q) (idx : list nat) : list (list Q) := map (fun _ => [w; 1]) idx.
Definition ex_optim (_ : nat) (w : Q) (o : objective) : Q :=
  match o with Contrast idx => w + 1 | Supervised il => 2 * w | Distil iu t _ => Qred (w + nth 0 (nth 0 t []) 0) end.
Definition ex_clr (cfg : clr_config) (binds : bool) (n_s : option nat) (h : heap Q) : heap Q * result (option bundle) :=
  clr_fit ex_gen (fun s => Z.to_nat s) (fun _ w _ => ex_net w) (fun _ _ w _ => ex_net w) ex_optim (fun _ w => Some w) (fun _ _ => false) (fun _ => binds)
    ex_softmax Qsum Qsum [0; 1]%Z cfg 2 (Some 3%nat) n_s 0 h.
Definition ex_heap : heap Q := fun m => {| c_weights := inject_Z (Z.of_nat m); c_frozen := false |}.
Definition ex_bundle (n : nat) : bundle := {| b_id := n; b_model := n |}.
Definition ex_config (pre fine student : option bundle) (pe fe de : Z) : clr_config :=
  {| cl_pre := pre; cl_fine := fine; cl_student := student; cl_temp := 1 # 2; cl_dtemp := 1; cl_alpha := 1 # 2; cl_b := 2; cl_pe := pe; cl_fe := fe; cl_de := de; cl_transfer := true; cl_labelled := true |}.
Definition ex_weights (r : heap Q * result (option bundle)) (n : nat) : list Q := map (fun m => Qred (c_weights (fst r m))) (seq 0 n).

Lemma ex_networks : clr_networks_ok 2 2 [0; 1]%Z (fun _ w (_ : view) => ex_net w) (fun _ (_ : bool) w (_ : view) => ex_net w).
Proof.
  assert (T : forall w idx, table (length idx) 2 (ex_net w idx)).
  { intros w idx. unfold ex_net. split; [apply map_length|]. intros r I. apply in_map_iff in I. destruct I as (i & <- & _). reflexivity. }
  split; [exists 2%nat; intros; apply T|]. split; [intros; apply T|]. intros i I. destruct i as [|[|i]]; cbn; lia.
Qed.
(* three stages with three bundles: two pretraining steps, the transfer, one fine-tuning step, two distillation steps *)
Example C140_stages_ex : gen_ok ex_gen /\ clr_networks_ok 2 2 [0; 1]%Z (fun _ w (_ : view) => ex_net w) (fun _ (_ : bool) w (_ : view) => ex_net w) /\
  snd (ex_clr (ex_config (Some (ex_bundle 3)) (Some (ex_bundle 4)) (Some (ex_bundle 5)) 1 1 1) true None ex_heap) = Ok (Some (ex_bundle 5)) /\
  ex_weights (ex_clr (ex_config (Some (ex_bundle 3)) (Some (ex_bundle 4)) (Some (ex_bundle 5)) 1 1 1) true None ex_heap) 6 = [0; 1; 2; 5; 10; 75 # 11].
Proof.
  split; [intros s n; apply Permutation_sym, Permutation_rev|]. split; [exact ex_networks|]. split; vm_compute; reflexivity.
Qed.
Example C140_rejects_ex : ex_clr (ex_config (Some (ex_bundle 3)) None None 1 0 0) true (Some 2%nat) ex_heap = (ex_heap, Err InductiveValidationError) /\
  snd (ex_clr (ex_config None (Some (ex_bundle 4)) (Some (ex_bundle 4)) 0 1 1) true None ex_heap) = Err InductiveValidationError.
Proof. split; vm_compute; reflexivity. Qed.
Example C140_predictor_ex : snd (ex_clr (ex_config (Some (ex_bundle 3)) None None 1 0 1) true None ex_heap) = Ok (Some (ex_bundle 3)) /\
  last_trained (ex_config (Some (ex_bundle 3)) None None 1 0 1) = Some (ex_bundle 3).
Proof. split; vm_compute; reflexivity. Qed.

(* C140: without fine-tuning and without a student bundle the distilled model is dropped: with two bundles the predictions come from
   the pretrained one; with pretraining off, nothing predicts and the method is unfitted after a fit that returned. *)
Theorem C140_dropped_refuted :
  (exists r, r = ex_clr (ex_config (Some (ex_bundle 3)) (Some (ex_bundle 4)) None 1 0 1) true None ex_heap /\ snd r = Ok (Some (ex_bundle 3)) /\
     last_trained (ex_config (Some (ex_bundle 3)) (Some (ex_bundle 4)) None 1 0 1) = Some (ex_bundle 4) /\ ~ c_weights (fst r 4%nat) == c_weights (fst r 3%nat)) /\
  (exists r, r = ex_clr (ex_config None (Some (ex_bundle 4)) None 0 0 1) true None ex_heap /\ snd r = Ok None /\ ~ c_weights (fst r 4%nat) == c_weights (ex_heap 4%nat) /\
     forall (call : bool -> list nat -> option (list Q)) sm xs, clr_predict (P := Q) call sm false false xs 2 = (Err RuntimeError, false)).
Proof.
  split; eexists; (split; [reflexivity|]); (split; [vm_compute; reflexivity|]).
  - split; [vm_compute; reflexivity|vm_compute; discriminate].
  - split; [vm_compute; discriminate|]. intros. reflexivity.
Qed.
(* C140: after a fit with fine-tuning and a student bundle the teacher stays frozen: no later fit with these bundles returns,
   whatever the data. *)
Theorem C140_second_refuted : forall M St (G : Gen St) manual_seed proj logits optim load shares binds softmax lse norm y cfg n_l n_w n_s seed n_w' n_s' seed' (h h' : heap M) final k,
  gen_ok G -> clr_networks_ok n_l k y proj logits -> (0 < cl_fe cfg)%Z -> (0 < cl_de cfg)%Z -> cl_student cfg <> None ->
  clr_fit G manual_seed proj logits optim load shares binds softmax lse norm y cfg n_l n_w n_s seed h = (h', Ok final) ->
  forall final', snd (clr_fit G manual_seed proj logits optim load shares binds softmax lse norm y cfg n_l n_w' n_s' seed' h') <> Ok final'.
Proof.
  intros M St G ms proj logits optim load shares binds softmax lse norm y cfg n_l n_w n_s seed n_w' n_s' seed' h h' final k OG ((d & OP) & OL & OY) F D S0 E.
  pose proof (fit_spec G ms proj logits optim load shares binds softmax lse norm y cfg n_l d k OG OP OL OY n_w n_s seed h) as X. rewrite E in X.
  destruct X as (_ & _ & (_ & B) & _). destruct (tuned cfg) as [f|] eqn:T; [|exfalso; apply B; [now left|reflexivity]].
  pose proof (teacher_frozen G ms proj logits optim load shares binds softmax lse norm y cfg n_l d k OG OP OL OY n_w n_s seed h h' final f E D S0 T) as Z0.
  exact (frozen_fails G ms proj logits optim load shares binds softmax lse norm y cfg n_l d k OG OP OL OY n_w' n_s' seed' h' f Z0 T F).
Qed.
Example C140_second_ex : exists r, r = ex_clr (ex_config None (Some (ex_bundle 4)) (Some (ex_bundle 5)) 0 1 1) true None ex_heap /\ snd r = Ok (Some (ex_bundle 5)) /\
  snd (ex_clr (ex_config None (Some (ex_bundle 4)) (Some (ex_bundle 5)) 0 1 1) true None (fst r)) = Err RuntimeError.
Proof. eexists. split; [reflexivity|]. split; vm_compute; reflexivity. Qed.
(* C140: the functions of a bundle that are not methods of its model still run the model itself after the copy: a model is then
   distilled from what it is now, not from what it was before distillation. *)
Theorem C140_teacher_refuted : exists cfg a b, cl_student cfg = None /\ a = ex_clr cfg true None ex_heap /\ b = ex_clr cfg false None ex_heap /\ snd a = snd b /\
  (exists w, snd a = Ok (Some w) /\ ~ c_weights (fst a (b_model w)) == c_weights (fst b (b_model w))).
Proof.
  exists (ex_config None (Some (ex_bundle 4)) None 0 1 2). do 2 eexists. split; [reflexivity|]. split; [reflexivity|]. split; [reflexivity|]. split; [vm_compute; reflexivity|].
  exists (ex_bundle 4). split; [vm_compute; reflexivity|vm_compute; discriminate].
Qed.

(* ------------------------------------------------------------------ C141: the losses and the predictions *)
(* C141: the contrastive loss of two views with n rows each is the average, over all 2n rows, of minus the log of the share of the
   other view of the row among all rows, where the similarity of a row to itself counts as -1e9. *)
Theorem C141_contrast : forall lse norm t n w a b, 0 < t -> (0 < n)%nat -> table n w a -> table n w b ->
  exists v, nt_xent lse norm t (a ++ b) = Ok v /\ average (map (contrast_row lse norm t n (a ++ b)) (seq 0 (2 * n))) v.
Proof. intros lse norm t n w a b T N A B. refine (nt_xent_value _ _ w t n (a ++ b) T N (table_app n w a b A B)). Qed.
(* C141: neither the order of the two views nor the order of the rows matters. *)
Theorem C141_symmetric : forall lse norm t n w a b v v', lse_ok lse -> 0 < t -> (0 < n)%nat -> table n w a -> table n w b -> nt_xent lse norm t (a ++ b) = Ok v ->
  (nt_xent lse norm t (b ++ a) = Ok v' -> v' == v) /\
  (forall order, Permutation order (seq 0 n) -> nt_xent lse norm t (pick a order ++ pick b order) = Ok v' -> v' == v).
Proof.
  intros lse norm t n w a b v v' L T N A B E. split; [intros X; exact (contrast_views lse norm L w t n a b v v' T N A B E X)|]. intros o P X. exact (contrast_order lse norm L w t n a b o v v' T N A B P E X).
Qed.
(* C141: what the steps of a fit differentiate: the contrastive loss of the projections of both views; the average cross entropy of
   the labels; and (1 - alpha) times that plus alpha times the average cross entropy of the teacher's targets and the student's
   softened predictions, or the latter alone. *)
Theorem C141_objective : forall M (proj : nat -> M -> view -> list nat -> list (list Q)) logits log_softmax ce lse norm y cfg b w n_l k,
  clr_networks_ok n_l k y proj logits -> (forall z, length (log_softmax z) = length z) -> clr_numbers_ok cfg ->
  let value := clr_value proj logits log_softmax ce lse norm y cfg b in
  let labels il := map (fun i => nth i y 0%Z) il in
  let supervised il v := average (map (fun i => ce (nth i (logits b true w Labelled il) []) (nth i (labels il) 0%Z)) (seq 0 (length il))) v in
  let taught iu targets v := average (map (fun i => soft_cross_entropy k (nth i targets []) (log_softmax (map (fun x => x / cl_dtemp cfg) (nth i (logits b true w Strong iu) [])))) (seq 0 (length iu))) v in
  (forall idx, idx <> [] -> exists v, value (Contrast idx) w = Ok v /\
     average (map (contrast_row lse norm (cl_temp cfg) (length idx) (proj b w Weak idx ++ proj b w Strong idx)) (seq 0 (2 * length idx))) v) /\
  (forall il, il <> [] -> exists v, value (Supervised il) w = Ok v /\ supervised il v) /\
  (forall iu targets, iu <> [] -> table (length iu) k targets -> exists v, value (Distil iu targets None) w = Ok v /\ taught iu targets v) /\
  (forall iu il targets, iu <> [] -> il <> [] -> table (length iu) k targets ->
     exists v s u, value (Distil iu targets (Some il)) w = Ok v /\ supervised il s /\ taught iu targets u /\ v == (1 - cl_alpha cfg) * s + cl_alpha cfg * u).
Proof.
  intros M proj logits log_softmax ce lse norm y cfg b w n_l k ((d & OP) & OL & _) LS (_ & _ & _ & _ & _ & _ & T & _). cbv zeta.
  assert (NE : forall l : list nat, l <> [] -> (0 < length l)%nat) by (intros [|? ?] X; [easy|cbn; lia]).
  assert (SUP : forall il, il <> [] -> average (map (fun i => ce (nth i (logits b true w Labelled il) []) (nth i (map (fun i => nth i y 0%Z) il) 0%Z)) (seq 0 (length il)))
     (ce_mean ce (logits b true w Labelled il) (labels_of y il))).
  { intros il X. apply ce_mean_spec; [apply OL|unfold labels_of; apply map_length|apply NE, X]. }
  assert (TAU : forall iu targets, iu <> [] -> table (length iu) k targets ->
     average (map (fun i => soft_cross_entropy k (nth i targets []) (log_softmax (map (fun x => x / cl_dtemp cfg) (nth i (logits b true w Strong iu) [])))) (seq 0 (length iu)))
       (distill_loss log_softmax (cl_dtemp cfg) (logits b true w Strong iu) targets)).
  { intros iu targets X TB. apply distill_value; [apply NE, X|apply OL|exact TB|exact LS]. }
  split; [|split; [|split]].
  - intros idx X. cbn [clr_value]. eapply C141_contrast; [exact T|apply NE, X|apply OP|apply OP].
  - intros il X. eexists. split; [reflexivity|]. now apply SUP.
  - intros iu targets X TB. eexists. split; [reflexivity|]. now apply TAU.
  - intros iu il targets X X' TB. do 3 eexists. split; [reflexivity|]. split; [now apply SUP|]. split; [now apply TAU|]. reflexivity.
Qed.
(* C141: a fitted method scores every row on its own, whatever the batch size, also when there are no rows, and leaves the model in
   the mode it was in; a method without a bundle fails. *)
Theorem C141_predict : forall X R P (call : bool -> list X -> option (list R)) (softmax : R -> P) f training xs b,
  clr_predict call softmax false training xs b = (Err RuntimeError, training) /\
  (row_wise call f -> (0 < b)%Z -> clr_predict call softmax true training xs b = (Ok (map (fun x => softmax (f x)) xs), training)).
Proof. intros. split; [reflexivity|]. intros. now apply predict_fine. Qed.

Example C141_ex : (exists v, nt_xent Qsum (fun r => nth 0 r 0) 2 ([[1; 2]; [2; 0]] ++ [[1; 0]; [1; 1]]) = Ok v) /\ lse_ok Qsum /\ table 2 2 [[1; 2]; [2; 0]] /\
  clr_networks_ok 2 2 [0; 1]%Z (fun _ w (_ : view) => ex_net w) (fun _ (_ : bool) w (_ : view) => ex_net w) /\ (forall z, length (ex_log_softmax z) = length z) /\
  clr_numbers_ok (ex_config (Some (ex_bundle 3)) None None 1 0 1) /\ row_wise (fun (_ : bool) xs => Some (map S xs)) S.
Proof.
  split; [eexists; reflexivity|]. split; [intros a b P; now apply Qsum_perm|]. split; [split; [reflexivity|]; intros r [<-|[<-|[]]]; reflexivity|]. split; [exact ex_networks|].
  split; [intros z; unfold ex_log_softmax; rewrite map_length; apply ex_softmax_ok|]. split; [|intros l; reflexivity].
  unfold clr_numbers_ok, ex_config. cbn. repeat split; try lia; try (unfold Qle, Qlt; cbn; lia).
Qed.

Print Assumptions C140_stages.
Print Assumptions C140_rejects.
Print Assumptions C140_predictor.
Print Assumptions C140_dropped_refuted.
Print Assumptions C140_second_refuted.
Print Assumptions C140_teacher_refuted.
Print Assumptions C141_contrast.
Print Assumptions C141_symmetric.
Print Assumptions C141_objective.
Print Assumptions C141_predict.
