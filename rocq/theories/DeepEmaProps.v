From Coq Require Import QArith Qminmax Permutation Lqa Lia ZifyBool ZifyNat.
From Verif Require Import Prelude QFacts ListFacts SamplingSpec S4vmProofs DeepBatchModel DeepBatchSpec DeepBatchProofs DeepBatchProps DeepLossModel DeepLossSpec DeepLossProofs DeepLossProps DeepThreshSpec DeepThreshProofs DeepEmaModel DeepEmaSpec DeepEmaProofs.
Local Open Scope Z_scope.
Local Open Scope Q_scope.
Local Open Scope list_scope.

(* ------------------------------------------------------------------ C88: Temporal Ensembling *)
(* C88: a fit either refuses its arguments, or the loss of step s of epoch e is the labelled cross entropy plus the
   ramped, weighted mean squared difference between the average of the two current predictions and the target of epoch e:
   the moving average of the last prediction every earlier epoch made for the row, starting from 0, divided by
   max(1 - alpha^(e+1), 1e-12).
   Partial: the full property also asks for this target to be a distribution (an average of earlier predictions), which is
   false of the code, see C88_targets_are_distributions_refuted below. *)
Theorem C88_objective_partial : forall (St : Type) (G : Gen St) softmax ce net_l net_w net_s y lambda_u fraction alpha n_l n_u n_s b max_epochs sl su k,
  gen_ok G -> softmax_ok softmax -> (0 < k)%nat -> length y = n_l -> (forall c, In c y -> (0 <= c < Z.of_nat k)%Z) ->
  (forall t idx, table (length idx) k (net_l t idx)) -> (forall t idx, table (length idx) k (net_w t idx)) -> (forall t idx, table (length idx) k (net_s t idx)) ->
  match te_fit G softmax ce net_l net_w net_s y lambda_u fraction alpha n_l n_u n_s b max_epochs sl su with
  | Ok losses => exists epochs m warmup,
      fit_batches G n_l n_u b max_epochs sl su = Ok epochs /\ (0 < m)%Z /\ (forall st, In st epochs -> lenZ st = m) /\
      ramp_length fraction (max_epochs * m) warmup /\ map (@length Q) losses = map (@length _) epochs /\
      forall e s il iu, (e < length epochs)%nat -> nth_error (nth e epochs []) s = Some (il, iu) ->
        let t := time m e s in
        let pw t iu := map softmax (net_w t iu) in let ps t iu := map softmax (net_s t iu) in
        exists sup unsup warm,
          average (map (fun r => ce (nth r (net_l t il) []) (nth (nth r il 0%nat) y 0%Z)) (seq 0 (length il))) sup /\
          average (entries_of (length iu) k (fun r c =>
            square ((cell (pw t iu) r c + cell (ps t iu) r c) / 2 - te_target alpha (said_before m pw ps epochs e) (nth r iu 0%nat) c))) unsup /\
          ramp warmup t warm /\ nth s (nth e losses []) 0 == sup + lambda_u * unsup * warm
  | Err e => e = InductiveValidationError /\ (n_u <> n_s \/ n_l = 0%nat \/ n_u = 0%nat \/ (b <= 0)%Z \/ (max_epochs <= 0)%Z \/ lambda_u < 0 \/ fraction < 0 \/ alpha < 0 \/ 1 <= alpha)
  end.
Proof.
  intros St G softmax ce net_l net_w net_s y lambda_u fraction alpha n_l n_u n_s b max_epochs sl su k GO SM K LY Y TL TW TS.
  pose proof (te_fit_spec G softmax ce net_l net_w net_s y lambda_u fraction alpha n_l n_u n_s b max_epochs sl su k GO SM K LY Y TL TW TS) as H.
  destruct (te_fit G softmax ce net_l net_w net_s y lambda_u fraction alpha n_l n_u n_s b max_epochs sl su) as [losses|e]; [|exact H].
  destruct H as (epochs & m & warmup & E & M & F & R & A & L & H). exists epochs, m, warmup. split; [exact E|]. split; [exact M|].
  split; [intros st I; now apply F|]. split; [exact R|]. split; [exact L|]. intros e s il iu He N. specialize (H e s il iu He N).
  unfold te_loss_spec, bias in H. unfold te_target, said_before, lenZ. rewrite map_length, seq_length. exact H.
Qed.

(* C88: before epoch e the moving average of every row sums to 1 - alpha^e over the classes, so a target sums to
   (1 - alpha^e) / (1 - alpha^(e+1)), floored at 1e-12: less than 1 for 0 < alpha. *)
Theorem C88_target_total : forall (St : Type) (G : Gen St) softmax net_w net_s n_l n_u b max_epochs sl su k epochs m alpha e i,
  gen_ok G -> softmax_ok softmax -> (0 < k)%nat ->
  (forall t idx, table (length idx) k (net_w t idx)) -> (forall t idx, table (length idx) k (net_s t idx)) ->
  fit_batches G n_l n_u b max_epochs sl su = Ok epochs -> (e < length epochs)%nat -> (i < n_u)%nat ->
  let past := said_before m (fun t iu => map softmax (net_w t iu)) (fun t iu => map softmax (net_s t iu)) epochs e in
  Qsum (map (past_average alpha past i) (seq 0 k)) == 1 - alpha ^ Z.of_nat e /\
  Qsum (map (te_target alpha past i) (seq 0 k)) == (1 - alpha ^ Z.of_nat e) / Qmax (1 - alpha ^ (Z.of_nat e + 1)) (1 # 1000000000000).
Proof.
  intros St G softmax net_w net_s n_l n_u b max_epochs sl su k epochs m alpha e i GO SM K TW TS FB He Hi past.
  pose proof (C80_fit_uses_every_row St G n_l n_u b max_epochs sl su GO) as C80. rewrite FB in C80. destruct C80 as (LE & k_l & k_u & _ & _ & C80).
  assert (S1 : Qsum (map (past_average alpha past i) (seq 0 k)) == 1 - alpha ^ Z.of_nat e).
  { unfold past_average, past, said_before.
    rewrite <- (past_sum alpha k (fun j c => last_said i c (epoch_views m (fun t iu => map softmax (net_w t iu)) (fun t iu => map softmax (net_s t iu)) epochs j)) e).
    - apply Qsum_ext. intros c _. now rewrite map_map.
    - intros j Hj. apply last_said_sum.
      + apply Forall_forall. intros v I. unfold epoch_views in I. apply in_map_iff in I. destruct I as (s & <- & I). apply in_seq in I.
        set (iu := snd (nth s (nth j epochs []) ([], []))). cbn zeta. unfold fair_view. cbn [fst snd].
        assert (T1 : table (length iu) k (map softmax (net_w (time m j s) iu))) by (apply (softmax_table softmax k SM), TW).
        assert (T2 : table (length iu) k (map softmax (net_s (time m j s) iu))) by (apply (softmax_table softmax k SM), TS).
        split; [exact T1|]. split; [exact T2|]. intros r Rr.
        rewrite !(nth_map softmax _ r []) by (rewrite ?(proj1 (TW _ _)), ?(proj1 (TS _ _)); exact Rr).
        split; apply SM; intros Z0; [pose proof (table_nth (length iu) k _ r (TW (time m j s) iu) Rr) as X|pose proof (table_nth (length iu) k _ r (TS (time m j s) iu) Rr) as X]; rewrite Z0 in X; cbn in X; lia.
      + destruct (C80 (nth j epochs []) ltac:(apply nth_In; lia)) as (_ & _ & _ & V & _). destruct (visits_In _ _ (V i Hi)) as (iu & I & J).
        apply in_map_iff in I. destruct I as (st & Est & I). destruct (In_nth _ _ ([], []) I) as (s & Hs & Es).
        eexists. split; [unfold epoch_views; apply in_map_iff; exists s; split; [reflexivity|apply in_seq; lia]|]. cbn [fst]. rewrite Es, Est. exact J. }
  split; [exact S1|]. unfold te_target, lenZ, past at 2, said_before. rewrite map_length, seq_length.
  rewrite (Qsum_ext _ (fun c => past_average alpha past i c * / Qmax (1 - alpha ^ (Z.of_nat e + 1)) (1 # 1000000000000))) by (intros; reflexivity).
  rewrite (Qsum_scale_r _ (past_average alpha past i)). rewrite S1. reflexivity.
Qed.

Definition ex_net (z1 z2 : Q) : Z -> list nat -> list (list Q) := fun _ idx => map (fun _ => [z1; z2]) idx.
Lemma ex_net_table z1 z2 t idx : table (length idx) 2 (ex_net z1 z2 t idx).
Proof. unfold ex_net. split; [apply map_length|]. intros r I. apply in_map_iff in I. now destruct I as (x & <- & _). Qed.

(* C88 (refuted): the targets are not probability distributions.  In the first epoch they are all 0, so the predictions
   of the unlabelled rows are pulled towards 0 rather than towards earlier predictions. *)
Theorem C88_targets_are_distributions_refuted :
  ~ (forall (St : Type) (G : Gen St) softmax net_w net_s n_l n_u b max_epochs sl su k epochs m alpha e i,
       gen_ok G -> softmax_ok softmax -> (0 < k)%nat -> 0 <= alpha < 1 ->
       (forall t idx, table (length idx) k (net_w t idx)) -> (forall t idx, table (length idx) k (net_s t idx)) ->
       fit_batches G n_l n_u b max_epochs sl su = Ok epochs -> (1 <= e < length epochs)%nat -> (i < n_u)%nat ->
       distribution (map (te_target alpha (said_before m (fun t iu => map softmax (net_w t iu)) (fun t iu => map softmax (net_s t iu)) epochs e) i) (seq 0 k))).
Proof.
  intros H. specialize (H nat ex_gen ex_softmax (ex_net 1 3) (ex_net 1 3) 1%nat 1%nat 1%Z 2%Z 0%nat 0%nat 2%nat _ 1%Z (1 # 2) 1%nat 0%nat
    (proj1 C80_satisfiable) ex_softmax_ok ltac:(lia) ltac:(lra) (ex_net_table 1 3) (ex_net_table 1 3) eq_refl ltac:(cbn; lia) ltac:(lia)).
  destruct H as [_ H]. vm_compute in H. discriminate H.
Qed.
Theorem C88_first_epoch_targets_refuted :
  ~ (forall (alpha : Q) (i k : nat) m prob_w prob_s epochs, (0 < k)%nat -> 0 <= alpha < 1 ->
       Qsum (map (te_target alpha (said_before m prob_w prob_s epochs 0) i) (seq 0 k)) == 1).
Proof.
  intros H. specialize (H (1 # 2) 0%nat 1%nat 1%Z (fun _ _ => []) (fun _ _ => []) [] ltac:(lia) ltac:(lra)). vm_compute in H. discriminate H.
Qed.
Example C88_ex :
  (exists losses, te_fit ex_gen ex_softmax ex_ce (ex_net 1 3) (ex_net 1 3) (ex_net 3 1) [1%Z] 1 (1 # 2) (1 # 2) 1 2 2 1 2 0%nat 0%nat = Ok losses /\
     map (@length Q) losses = [2; 2]%nat) /\
  Qsum (map (te_target (1 # 2) (said_before 1 (fun t iu => map ex_softmax (ex_net 1 3 t iu)) (fun t iu => map ex_softmax (ex_net 1 3 t iu)) [[([0%nat], [0%nat])]; [([0%nat], [0%nat])]] 1) 0) (seq 0 2)) == 2 # 3.
Proof. split; [eexists; split; [vm_compute; reflexivity|reflexivity]|vm_compute; reflexivity]. Qed.

(* ------------------------------------------------------------------ C89: the warm-up of the unlabelled loss *)
(* C89: the factor rises from 0 at step 0 to 1, in equal steps over the rounded fraction of all steps (at least one), never
   falls and stays in [0, 1]; it is always 1 when the fraction is 0; the ramp ends within the fit when the fraction is at most 1. *)
Theorem C89_ramp : forall fraction total, (0 <= total)%Z ->
  let m := warmup_steps fraction total in let v := warm_factor m in
  ramp_length fraction total m /\
  (forall t, (0 <= t)%Z -> ramp m t (v t) /\ 0 <= v t <= 1 /\ (fraction <= 0 -> v t == 1)) /\
  (forall t t', (0 <= t <= t')%Z -> v t <= v t') /\
  (0 < fraction -> v 0%Z == 0) /\
  (fraction <= 1 -> (1 <= total)%Z -> (m <= total)%Z).
Proof.
  intros f total T m v. pose proof (warmup_nonneg f total) as M. fold m in M. pose proof (warmup_spec f total) as R. fold m in R.
  split; [exact R|]. split; [|split; [|split]].
  - intros t Ht. pose proof (warm_ramp m t M Ht) as W. split; [exact W|]. split; [now apply (ramp_range m t)|].
    intros F. apply W. rewrite (proj1 R F). exact Ht.
  - intros t t' Ht. apply (ramp_mono m t t'); [exact Ht| |]; apply warm_ramp; lia.
  - intros F. destruct (proj2 R F) as (r & _ & E). destruct (warm_ramp m 0 M ltac:(lia)) as [W _]. specialize (W ltac:(lia)). fold (v 0%Z) in W.
    assert (P : 0 < inject_Z m) by (apply inject_pos; lia). change (inject_Z 0) with 0 in W. nra.
  - intros F T1. destruct (Qlt_le_dec 0 f) as [P|P]; [|rewrite (proj1 R P); lia]. destruct (proj2 R P) as (r & N & E).
    assert ((r <= total)%Z); [|lia]. apply (nearest_even_upper _ _ _ N). assert (0 <= inject_Z total) by (apply inject_nonneg; lia). nra.
Qed.
(* C89: a ramp over the whole fit or more never reaches the full weight. *)
Theorem C89_full_ramp_never_ends : forall fraction total t, 1 <= fraction -> (0 <= t < total)%Z -> warm_factor (warmup_steps fraction total) t < 1.
Proof.
  intros f total t F T. pose proof (warmup_nonneg f total) as M. destruct (proj2 (warmup_spec f total) ltac:(lra)) as (r & N & E).
  assert ((total <= r)%Z). { apply (nearest_even_lower _ _ _ N). assert (0 <= inject_Z total) by (apply inject_nonneg; lia). nra. }
  destruct (warm_ramp _ t M ltac:(lia)) as [W _]. specialize (W ltac:(lia)). assert (P : 0 < inject_Z (warmup_steps f total)) by (apply inject_pos; lia).
  assert (inject_Z t < inject_Z (warmup_steps f total)) by (rewrite <- Zlt_Qlt; lia). nra.
Qed.
(* C89 (refuted): the unlabelled data always counts.  With one step in all, which is what one epoch of one batch makes,
   the factor of that step is 0 for every positive fraction. *)
Theorem C89_unlabelled_rows_count_refuted :
  ~ (forall fraction total, 0 <= fraction -> (0 < total)%Z -> exists t, (0 <= t < total)%Z /\ ~ warm_factor (warmup_steps fraction total) t == 0).
Proof.
  intros H. destruct (H (4 # 10) 1%Z ltac:(lra) ltac:(lia)) as (t & T & N). assert (t = 0%Z) by lia. subst t. apply N. reflexivity.
Qed.
Example C89_ex : warmup_steps (4 # 10) 10 = 4%Z /\ warm_factor 4 1 == 1 # 4 /\ warm_factor 4 7 == 1 /\ warmup_steps (1 # 4) 10 = 2%Z.
Proof. repeat split; reflexivity. Qed.

(* ------------------------------------------------------------------ C90: Mean Teacher *)
(* C90: a fit either refuses its arguments, or fails with IndexError exactly when the strong view has fewer rows than the
   weak one, or the loss of step t is the student's cross entropy on the labelled rows plus the ramped, weighted mean
   squared difference between the student on the strong view and the teacher on the weak view; every weight of the
   teacher is the moving average of the student's weight since the start of the fit; predictions are made by the student. *)
Theorem C90_objective : forall (St : Type) (G : Gen St) softmax ce net_l net_w net_s student teacher0 same y lambda_u fraction decay n_l n_u n_s b max_epochs sl su k,
  gen_ok G -> softmax_ok softmax -> (0 < k)%nat -> length y = n_l -> (forall c, In c y -> (0 <= c < Z.of_nat k)%Z) ->
  (forall t p idx, table (length idx) k (net_l t p idx)) -> (forall t p idx, table (length idx) k (net_w t p idx)) -> (forall t p idx, table (length idx) k (net_s t p idx)) ->
  (forall t, same_params (student t) (student 0%Z)) ->
  match mt_fit G softmax ce net_l net_w net_s student teacher0 same y lambda_u fraction decay n_l n_u n_s b max_epochs sl su with
  | Ok (losses, final, last_teacher) => exists epochs m warmup (teacher : nat -> list tensor),
      fit_batches G n_l n_u b max_epochs sl su = Ok epochs /\ lenZ (concat epochs) = (max_epochs * m)%Z /\
      ramp_length fraction (max_epochs * m) warmup /\ (n_u <= n_s)%nat /\
      length losses = length (concat epochs) /\ final = student (lenZ (concat epochs)) /\ last_teacher = teacher (length (concat epochs)) /\
      (forall t, same_params (student 0%Z) (teacher t) /\ forall p j,
         param p j (teacher t) == running (fun x => x) decay (param p j (student 0%Z)) (map (fun u => param p j (student (Z.of_nat u))) (seq 1 t))) /\
      forall t il iu, nth_error (concat epochs) t = Some (il, iu) ->
        let T := Z.of_nat t in
        exists sup unsup warm,
          average (map (fun r => ce (nth r (net_l T (student T) il) []) (nth (nth r il 0%nat) y 0%Z)) (seq 0 (length il))) sup /\
          average (entries_of (length iu) k (fun r c =>
            square (cell (map softmax (net_s T (student T) iu)) r c - cell (map softmax (net_w T (teacher t) iu)) r c))) unsup /\
          ramp warmup T warm /\ nth t losses 0 == sup + lambda_u * unsup * warm
  | Err InductiveValidationError =>
      n_s = 0%nat \/ n_l = 0%nat \/ n_u = 0%nat \/ (b <= 0)%Z \/ (max_epochs <= 0)%Z \/ lambda_u < 0 \/ fraction < 0 \/ decay < 0 \/ 1 < decay \/
      same = true \/ ~ Forall2 (fun a b => tshape a = tshape b /\ tdevice a = tdevice b) (student 0%Z) teacher0
  | Err e => e = IndexError /\ (n_s < n_u)%nat
  end.
Proof.
  intros St G softmax ce net_l net_w net_s student teacher0 same y lambda_u fraction decay n_l n_u n_s b max_epochs sl su k GO SM K LY Y TL TW TS SP.
  pose proof (mt_fit_spec G softmax ce net_l net_w net_s student teacher0 same y lambda_u fraction decay n_l n_u n_s b max_epochs sl su k GO SM K LY Y TL TW TS SP) as H.
  destruct (mt_fit G softmax ce net_l net_w net_s student teacher0 same y lambda_u fraction decay n_l n_u n_s b max_epochs sl su) as [[[losses final] lt]|e]; [|exact H].
  destruct H as (epochs & m & warmup & E & NS & D & LC & R & L & F & T & H). exists epochs, m, warmup, (teacher_at student decay (student 0%Z)).
  repeat (split; [assumption|]). split; [|exact H]. intros t. apply teacher_spec. exact SP.
Qed.
(* C90: the teacher's weight lies between the least and the greatest value the student's weight has had so far; with decay 0
   it is the student's, with decay 1 it never moves. *)
Theorem C90_teacher_range : forall decay x0 values lo hi, 0 <= decay <= 1 ->
  (forall x, In x (x0 :: values) -> lo <= x <= hi) ->
  lo <= running (fun x => x) decay x0 values <= hi /\
  (decay == 0 -> running (fun x => x) decay x0 values == last values x0) /\
  (decay == 1 -> running (fun x => x) decay x0 values == x0).
Proof.
  intros d x0 values lo hi D H. split; [|split].
  - apply running_range; [exact D|auto| |]; intros; apply H; [now right|now left].
  - intros ZD. clear H. revert x0. induction values as [|v l IH] using rev_ind; intros x0; [reflexivity|]. rewrite running_app, last_last. rewrite running_one. nra.
  - intros O1. clear H. revert x0. induction values as [|v l IH] using rev_ind; intros x0; [reflexivity|]. rewrite running_app. rewrite running_one. specialize (IH x0). nra.
Qed.
(* C90 (refuted): unlike the other two-view methods, Mean Teacher accepts views of different sizes.  Rows of a longer strong
   view are never used; with a shorter one the fit ends with IndexError. *)
Theorem C90_views_must_match_refuted :
  ~ (forall (St : Type) (G : Gen St) softmax ce net_l net_w net_s student teacher0 same y lambda_u fraction decay n_l n_u n_s b max_epochs sl su,
       gen_ok G -> softmax_ok softmax -> n_u <> n_s ->
       mt_fit G softmax ce net_l net_w net_s student teacher0 same y lambda_u fraction decay n_l n_u n_s b max_epochs sl su = Err InductiveValidationError).
Proof.
  intros H. specialize (H nat ex_gen ex_softmax ex_ce (fun t _ => ex_net 1 3 t) (fun t _ => ex_net 1 3 t) (fun t _ => ex_net 1 3 t) (fun _ => []) [] false [1%Z] 1 (1 # 2) (1 # 2) 1%nat 1%nat 2%nat 1%Z 1%Z 0%nat 0%nat
    (proj1 C80_satisfiable) ex_softmax_ok ltac:(lia)). vm_compute in H. discriminate H.
Qed.
Definition ex_student (t : Z) : list tensor := [{| tshape := [1%Z]; tdevice := 0; tdata := [inject_Z t] |}].
Example C90_ex :
  (forall t, same_params (ex_student t) (ex_student 0)) /\
  exists losses final teacher,
    mt_fit ex_gen ex_softmax ex_ce (fun t _ => ex_net 1 3 t) (fun t p => ex_net (1 + param 0 0 p) 3 t) (fun t _ => ex_net 1 3 t) ex_student (ex_student 0) false [1%Z] 1 (1 # 2) (1 # 2)
      1 2 2 1 1 0%nat 0%nat = Ok (losses, final, teacher) /\ final = ex_student 2 /\ param 0 0 teacher == 5 # 4.
Proof.
  split; [intros t; constructor; [now repeat split|constructor]|]. eexists _, _, _. split; [vm_compute; reflexivity|]. split; reflexivity.
Qed.

(* ------------------------------------------------------------------ C91: MixMatch *)
(* C91: one step.  Every row is mixed with a row of the same batch, chosen by a permutation, with a weight of at least one
   half for itself; inputs and targets are mixed with the same weight and the same partner; the loss is the soft cross
   entropy of the first rows against their mixed targets plus the ramped, weighted mean squared error of the others.
   The only refusal is for labels outside the classes. *)
Theorem C91_step : forall (St W : Type) (G : Gen St) (world : World W) softmax log_softmax pow call one alpha lambda_u warm xl xw xs yb lw ls s w n_l n_u d k,
  gen_ok G -> (forall w a n, draws_ok (fst (w_beta world w a n)) n) -> softmax_ok softmax -> (forall z, length (log_softmax z) = length z) ->
  (0 < n_l)%nat -> (0 < n_u)%nat -> (0 < k)%nat -> length yb = n_l -> table n_l d xl -> table n_u d xw -> table n_u d xs -> table n_u k lw -> table n_u k ls ->
  (forall x, length (call x) = length x /\ forall r, In r (call x) -> length r = k) ->
  match mm_step G world softmax log_softmax pow call one alpha lambda_u warm xl xw xs yb lw ls s w with
  | Ok (loss, _, _) => exists lam partner targets mx my sup unsup,
      (forall c, In c yb -> (0 <= c < Z.of_nat k)%Z) /\
      Permutation partner (seq 0 (n_l + n_u + n_u)) /\ length lam = (n_l + n_u + n_u)%nat /\
      (forall x, In x lam -> 1 # 2 <= x <= 1) /\ (alpha <= 0 -> forall x, In x lam -> x == 1) /\
      mix_targets pow one k yb (map softmax lw) (map softmax ls) targets /\
      mixture lam partner d (xl ++ xw ++ xs) mx /\ mixture lam partner k targets my /\
      average (map (fun r => soft_cross_entropy k (nth r my []) (log_softmax (nth r (call mx) []))) (seq 0 n_l)) sup /\
      average (entries_of (n_u + n_u) k (fun r c => square (nth c (softmax (nth (n_l + r) (call mx) [])) 0 - cell my (n_l + r) c))) unsup /\
      loss == sup + lambda_u * unsup * warm
  | Err e => e = InductiveValidationError /\ exists c, In c yb /\ ~ (0 <= c < Z.of_nat k)%Z
  end.
Proof. intros. now apply mm_step_spec. Qed.

(* C91, partial (the powers must not vanish): if the powers of a row's averaged prediction do not vanish, all targets are distributions before and after mixing,
   and a labelled row's own class keeps at least half of its target. *)
Theorem C91_targets_partial : forall softmax pow one k yb lw ls targets lam partner mixed n_u,
  softmax_ok softmax -> pow_ok pow -> (0 < k)%nat -> table n_u k lw -> table n_u k ls -> (forall c, In c yb -> (0 <= c < Z.of_nat k)%Z) ->
  mix_targets pow one k yb (map softmax lw) (map softmax ls) targets ->
  (one = false -> forall p, length p = k -> distribution p -> (1 # 1000000000000) <= Qsum (map pow p)) ->
  length lam = (length yb + n_u + n_u)%nat -> (forall x, In x lam -> 1 # 2 <= x <= 1) -> Permutation partner (seq 0 (length yb + n_u + n_u)) ->
  mixture lam partner k targets mixed ->
  (forall r, (r < length yb + n_u + n_u)%nat -> distribution (nth r targets []) /\ distribution (nth r mixed [])) /\
  (forall r, (r < length yb)%nat -> (1 # 2) <= cell mixed r (Z.to_nat (nth r yb 0%Z))).
Proof.
  intros softmax pow one k yb lw ls targets lam partner mixed n_u SM PO K TW TS YB (TT & TL & TU) PS LL LR PP MX.
  rewrite map_length in TT, TU. rewrite (proj1 TW) in TT, TU.
  assert (DG : forall r, (r < n_u)%nat -> distribution (nth (length yb + r) targets [])).
  { intros r R. destruct (TU r R) as [(p & Lp & Ep & Gp) _].
    assert (Dp : length p = k /\ distribution p).
    { rewrite (nth_map softmax lw r []) in Lp by (rewrite (proj1 TW); exact R).
      destruct (SM (nth r lw [])) as (L1 & N1 & S1). destruct (SM (nth r ls [])) as (L2 & N2 & S2).
      rewrite (table_nth n_u k lw r TW R) in L1. rewrite (table_nth n_u k ls r TS R) in L2. rewrite L1 in Lp. split; [exact Lp|].
      assert (D1 : distribution (softmax (nth r lw []))) by (split; [exact N1|apply S1; intros X; apply (f_equal (@length Q)) in X; rewrite (table_nth n_u k lw r TW R) in X; cbn in X; lia]).
      assert (D2 : distribution (softmax (nth r ls []))) by (split; [exact N2|apply S2; intros X; apply (f_equal (@length Q)) in X; rewrite (table_nth n_u k ls r TS R) in X; cbn in X; lia]).
      apply (distribution_nth k) in D1; [|exact L1]. apply (distribution_nth k) in D2; [|exact L2]. destruct D1 as [A1 B1], D2 as [A2 B2].
      rewrite (nth_map softmax lw r []) in Ep by (rewrite (proj1 TW); exact R). rewrite (nth_map softmax ls r []) in Ep by (rewrite (proj1 TS); exact R).
      apply (distribution_nth k); [exact Lp|]. split.
      - intros c C. rewrite Ep. specialize (A1 c C). specialize (A2 c C). apply Qle_shift_div_l; lra.
      - rewrite (Qsum_ext _ (fun c => (1 # 2) * (nth c (softmax (nth r lw [])) 0 + nth c (softmax (nth r ls [])) 0))) by (intros c _; rewrite Ep; field).
        rewrite Qsum_scale, Qsum_plus, B1, B2. reflexivity. }
    destruct Dp as [Lk Dp]. destruct one; [now rewrite Gp|]. apply (sharpened_distribution pow PO p); [apply Dp|exact Gp|now apply PS]. }
  assert (DT : forall r, (r < length yb + n_u + n_u)%nat -> distribution (nth r targets [])).
  { intros r R. destruct (Nat.lt_ge_cases r (length yb)) as [H|H].
    - apply (distribution_nth k); [now apply (table_nth (length yb + n_u + n_u))|].
      assert (D0 : distribution (one_hot k (nth r yb 0%Z))) by (apply one_hot_distribution, YB, nth_In; exact H).
      apply (distribution_nth k) in D0; [|apply one_hot_length]. destruct D0 as [A0 B0].
      assert (EQ : forall c, (c < k)%nat -> nth c (nth r targets []) 0 == nth c (one_hot k (nth r yb 0%Z)) 0).
      { intros c C. rewrite one_hot_nth by exact C. apply TL; assumption. }
      split; [intros c C; rewrite (EQ c C); now apply A0|]. rewrite <- B0. apply Qsum_ext. intros c I. apply in_seq in I. apply EQ. lia.
    - destruct (Nat.lt_ge_cases r (length yb + n_u)) as [H2|H2].
      + replace r with (length yb + (r - length yb))%nat by lia. apply DG. lia.
      + replace r with (length yb + n_u + (r - length yb - n_u))%nat by lia. destruct (TU (r - length yb - n_u)%nat ltac:(lia)) as [_ ->]. apply DG. lia. }
  pose proof (mixture_distribution lam partner k (length yb + n_u + n_u) targets mixed (proj1 TT) LL LR PP) as MD.
  assert (MD' : forall r, (r < length yb + n_u + n_u)%nat -> distribution (nth r mixed []) /\ forall c, (c < k)%nat -> (1 # 2) * cell targets r c <= cell mixed r c).
  { apply MD; [|exact MX]. intros x I. destruct (In_nth _ _ [] I) as (r & R & <-). rewrite (proj1 TT) in R. split; [now apply (table_nth (length yb + n_u + n_u))|now apply DT]. }
  split; [intros r R; split; [now apply DT|now apply MD']|].
  intros r R. specialize (YB (nth r yb 0%Z) ltac:(apply nth_In; exact R)). destruct (MD' r ltac:(lia)) as [_ M]. specialize (M (Z.to_nat (nth r yb 0%Z)) ltac:(lia)).
  rewrite TL in M by lia. rewrite Z2Nat.id, Z.eqb_refl in M by lia. rewrite Qmult_1_r in M. exact M.
Qed.

(* C91 (refuted): the seed given to fit does not determine the mixing: the weights come from torch's process-wide random
   state, not from the seeded generator. *)
Definition ex_world : World bool := {| w_beta := fun (w : bool) (_ : Q) (n : nat) => (repeat (if w then 1 else 1 # 2) n, w) |}.
Theorem C91_seed_determines_mixing_refuted :
  ~ (forall (St W : Type) (G : Gen St) (world : World W) alpha xs ys s w w' mx my s1 w1 mx' my' s1' w1',
       gen_ok G -> (forall w a n, draws_ok (fst (w_beta world w a n)) n) ->
       mixup G world alpha xs ys s w = Ok (mx, my, s1, w1) -> mixup G world alpha xs ys s w' = Ok (mx', my', s1', w1') -> Forall2 (Forall2 Qeq) my my').
Proof.
  intros H.
  assert (D : forall w a n, draws_ok (fst (w_beta ex_world w a n)) n).
  { intros w a n. split; [cbn; now destruct w; rewrite repeat_length|]. cbn. intros x I. apply repeat_spec in I. subst x. destruct w; lra. }
  pose proof (H nat bool ex_gen ex_world (1 # 2) [[0]; [1]] [[1; 0]; [0; 1]] 0%nat true false _ _ _ _ _ _ _ _ (proj1 C80_satisfiable) D eq_refl eq_refl) as H1. clear H. rename H1 into H. inversion H as [|x y l l' H1 H2]. subst. inversion H1 as [|p q m m' H3 H4]. subst. clear - H3. rename H3 into H. vm_compute in H. discriminate H.
Qed.
Example C91_ex :
  (exists loss s w, mm_step ex_gen ex_world ex_softmax ex_log_softmax pow50 (fun x => map (fun _ => [1; 3]) x) true (1 # 2) 1 (1 # 2) [[0]] [[1]] [[2]] [1%Z] [[3; 1]] [[1; 1]] 0%nat false = Ok (loss, s, w)) /\
  (forall w a n, draws_ok (fst (w_beta ex_world w a n)) n).
Proof.
  split; [eexists _, _, _; vm_compute; reflexivity|].
  intros w a n. split; [cbn; now destruct w; rewrite repeat_length|]. cbn. intros x I. apply repeat_spec in I. subst x. destruct w; lra.
Qed.

Print Assumptions C88_objective_partial.
Print Assumptions C88_target_total.
Print Assumptions C88_targets_are_distributions_refuted.
Print Assumptions C88_first_epoch_targets_refuted.
Print Assumptions C89_ramp.
Print Assumptions C89_full_ramp_never_ends.
Print Assumptions C89_unlabelled_rows_count_refuted.
Print Assumptions C90_objective.
Print Assumptions C90_teacher_range.
Print Assumptions C90_views_must_match_refuted.
Print Assumptions C91_step.
Print Assumptions C91_targets_partial.
Print Assumptions C91_seed_determines_mixing_refuted.
