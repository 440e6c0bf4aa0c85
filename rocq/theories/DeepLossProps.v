(* C83: the objective of FixMatch, DeFixMatch, UDA and Noisy Student. *)
From Coq Require Import QArith Qminmax Qabs Lia Lqa ZifyBool ZifyNat String.
From Verif Require Import Prelude QFacts DeepLossModel DeepLossSpec DeepLossProofs.
Local Open Scope string_scope.
Local Open Scope Z_scope.
Local Open Scope Q_scope.
Local Open Scope list_scope.
Local Notation length := List.length.

(* C83: FixMatch, hard labels: average loss of the labelled rows, plus lambda_u times the average loss of exactly those
   unlabelled rows whose weak view has a class of probability at least p_cutoff, each against a class that is most
   probable for its weak view; the temperature does not matter. *)
Theorem C83_fixmatch_hard : forall softmax log_softmax ce argmax pow n m w lambda_u cutoff one logits_l y logits_w logits_s,
  softmax_ok softmax -> argmax_ok argmax -> pow_ok pow -> (forall z, length (log_softmax z) = length z) ->
  table m w logits_l -> length y = m -> table n w logits_w -> table n w logits_s -> (0 < m)%nat -> (0 < n)%nat -> (0 < w)%nat ->
  (forall c, In c y -> (0 <= c < Z.of_nat w)%Z) ->
  exists (pseudo : nat -> Z) sup unsup loss,
    (forall i, (i < n)%nat -> most_likely (softmax (nth i logits_w [])) (pseudo i)) /\
    average (map (fun i => ce (nth i logits_l []) (nth i y 0%Z)) (seq 0 m)) sup /\
    average (map (fun i => ce (nth i logits_s []) (pseudo i)) (chosen n (fun i => confident cutoff (softmax (nth i logits_w []))))) unsup /\
    fixmatch_loss softmax log_softmax ce argmax pow lambda_u cutoff true one logits_l y logits_w logits_s = Ok loss /\
    loss == sup + lambda_u * unsup.
Proof.
  intros softmax log_softmax ce argmax pow n m w lambda_u cutoff one logits_l y logits_w logits_s SM AM PW LS TL LY TW TS M N W LAB.
  destruct (unsup_hard softmax log_softmax ce argmax pow (fun x => x) (fun x => x) SM LS AM PW n w cutoff W one logits_w logits_s TW TS) as (pseudo & P1 & P2).
  pose proof (ce_mean_spec ce m logits_l y (proj1 TL) LY M) as SUP.
  destruct (check_step_spec n w n w m w logits_l y logits_w logits_s TL TW TS M N N) as [(E & _)|(_ & NO)]; [|exfalso; apply NO; auto].
  unfold fixmatch_loss. rewrite E. cbn [bind].
  eexists pseudo, _, _, _. split; [exact P1|]. split; [exact SUP|]. split; [exact P2|]. split; [reflexivity|apply Qeq_refl].
Qed.

(* C83: FixMatch, soft labels: the same with the cross entropy against the sharpened weak probabilities. *)
Theorem C83_fixmatch_soft : forall softmax log_softmax ce argmax pow n m w lambda_u cutoff (one : bool) logits_l y logits_w logits_s,
  softmax_ok softmax -> argmax_ok argmax -> pow_ok pow -> (forall z, length (log_softmax z) = length z) ->
  table m w logits_l -> length y = m -> table n w logits_w -> table n w logits_s -> (0 < m)%nat -> (0 < n)%nat -> (0 < w)%nat ->
  (forall c, In c y -> (0 <= c < Z.of_nat w)%Z) ->
  exists (target : nat -> list Q) sup unsup loss,
    (forall i, (i < n)%nat -> if one then target i = softmax (nth i logits_w []) else sharpened pow (softmax (nth i logits_w [])) (target i)) /\
    average (map (fun i => ce (nth i logits_l []) (nth i y 0%Z)) (seq 0 m)) sup /\
    average (map (fun i => soft_cross_entropy w (target i) (log_softmax (nth i logits_s []))) (chosen n (fun i => confident cutoff (softmax (nth i logits_w []))))) unsup /\
    fixmatch_loss softmax log_softmax ce argmax pow lambda_u cutoff false one logits_l y logits_w logits_s = Ok loss /\
    loss == sup + lambda_u * unsup.
Proof.
  intros softmax log_softmax ce argmax pow n m w lambda_u cutoff one logits_l y logits_w logits_s SM AM PW LS TL LY TW TS M N W LAB.
  destruct (unsup_soft softmax log_softmax ce argmax pow (fun x => x) (fun x => x) SM LS AM PW n w cutoff W one logits_w logits_s TW TS) as (target & P1 & P2).
  pose proof (ce_mean_spec ce m logits_l y (proj1 TL) LY M) as SUP.
  destruct (check_step_spec n w n w m w logits_l y logits_w logits_s TL TW TS M N N) as [(E & _)|(_ & NO)]; [|exfalso; apply NO; auto].
  unfold fixmatch_loss. rewrite E. cbn [bind].
  eexists target, _, _, _. split; [exact P1|]. split; [exact SUP|]. split; [exact P2|]. split; [reflexivity|apply Qeq_refl].
Qed.

(* C83: a step is refused exactly when the tables' sizes disagree or a label is no class. *)
Theorem C83_refuses : forall softmax log_softmax ce argmax pow lambda_u cutoff hard one n w n' w' m w'' logits_l y logits_w logits_s,
  table m w'' logits_l -> table n w logits_w -> table n' w' logits_s -> (0 < m)%nat -> (0 < n)%nat -> (0 < n')%nat ->
  let r := fixmatch_loss softmax log_softmax ce argmax pow lambda_u cutoff hard one logits_l y logits_w logits_s in
  ((exists loss, r = Ok loss) <-> n = n' /\ w = w' /\ w = w'' /\ (forall c, In c y -> (0 <= c < Z.of_nat w'')%Z)) /\
  (forall e, r = Err e -> e = InductiveValidationError).
Proof.
  intros softmax log_softmax ce argmax pow lambda_u cutoff hard one n w n' w' m w'' logits_l y logits_w logits_s TL TW TS M N N' r.
  destruct (check_step_spec n w n' w' m w'' logits_l y logits_w logits_s TL TW TS M N N') as [(E & H)|(E & NO)];
    unfold r, fixmatch_loss; rewrite E; cbn [bind]; (split; [split|]).
  - intros _. exact H.
  - intros _. eexists. reflexivity.
  - intros e D. discriminate D.
  - intros (l & D). discriminate D.
  - intros H. contradiction.
  - intros e D. now injection D.
Qed.

(* C83: the strong views of rows that are not confident have no influence. *)
Theorem C83_unconfident_rows_are_ignored : forall softmax log_softmax ce argmax pow n m w lambda_u cutoff hard one logits_l y logits_w logits_s logits_s',
  softmax_ok softmax -> argmax_ok argmax -> pow_ok pow -> (forall z, length (log_softmax z) = length z) ->
  table m w logits_l -> length y = m -> table n w logits_w -> table n w logits_s -> table n w logits_s' -> (0 < m)%nat -> (0 < n)%nat -> (0 < w)%nat ->
  (forall c, In c y -> (0 <= c < Z.of_nat w)%Z) ->
  (forall i, (i < n)%nat -> confident cutoff (softmax (nth i logits_w [])) = true -> nth i logits_s [] = nth i logits_s' []) ->
  exists loss loss',
    fixmatch_loss softmax log_softmax ce argmax pow lambda_u cutoff hard one logits_l y logits_w logits_s = Ok loss /\
    fixmatch_loss softmax log_softmax ce argmax pow lambda_u cutoff hard one logits_l y logits_w logits_s' = Ok loss' /\ loss == loss'.
Proof.
  intros softmax log_softmax ce argmax pow n m w lambda_u cutoff hard one logits_l y logits_w ls ls' SM AM PW LS TL LY TW TS TS' M N W LAB SAME.
  destruct (check_step_spec n w n w m w logits_l y logits_w ls TL TW TS M N N) as [(E & _)|(_ & NO)]; [|exfalso; apply NO; auto].
  destruct (check_step_spec n w n w m w logits_l y logits_w ls' TL TW TS' M N N) as [(E' & _)|(_ & NO)]; [|exfalso; apply NO; auto].
  unfold fixmatch_loss. rewrite E, E'. cbn [bind]. eexists _, _. split; [reflexivity|]. split; [reflexivity|].
  apply Qplus_comp; [apply Qeq_refl|]. apply Qmult_comp; [apply Qeq_refl|].
  assert (UNIQ : forall vals a b, average vals a -> average vals b -> a == b).
  { intros vals a b [A1 A2] [B1 B2]. destruct vals as [|v r]; [rewrite (A2 eq_refl), (B2 eq_refl); apply Qeq_refl|].
    pose proof (lenZ_pos (v :: r) ltac:(easy)) as L. rewrite <- B1 in A1. apply Qmult_inj_r in A1; [exact A1|]. intros Z0. rewrite Z0 in L. discriminate L. }
  assert (CH : forall i, In i (chosen n (fun i => confident cutoff (softmax (nth i logits_w [])))) -> nth i ls [] = nth i ls' []).
  { intros i I. apply filter_In in I. destruct I as [I C]. apply in_seq in I. apply SAME; [lia|exact C]. }
  assert (SEQ : forall l : list row, length l = n -> l = map (fun i => nth i l []) (seq 0 n)) by (intros l L; apply (as_seq [] l n L)).
  assert (NE : forall i, (i < n)%nat -> softmax (nth i logits_w []) <> []).
  { intros i I Z0. apply (f_equal (@List.length Q)) in Z0. rewrite (proj1 (SM _)), (table_nth _ _ _ _ TW I) in Z0. cbn in Z0. lia. }
  assert (EW : map softmax logits_w = map (fun i => softmax (nth i logits_w [])) (seq 0 n)).
  { rewrite (SEQ logits_w (proj1 TW)) at 1. now rewrite map_map. }
  rewrite EW. rewrite (mask_spec cutoff (fun i => softmax (nth i logits_w []))) by exact NE.
  unfold pseudo_losses.
  destruct hard.
  - rewrite (SEQ ls (proj1 TS)) at 1. rewrite (SEQ ls' (proj1 TS')) at 1. rewrite !map_map, !zipw_maps.
    eapply UNIQ; [apply (masked_mean_spec (fun i => ce (nth i ls []) (argmax (sharpen pow one (softmax (nth i logits_w []))))))|].
    erewrite map_ext_in; [apply (masked_mean_spec (fun i => ce (nth i ls' []) (argmax (sharpen pow one (softmax (nth i logits_w []))))))|].
    intros i I. cbn beta. now rewrite (CH i I).
  - rewrite (SEQ ls (proj1 TS)) at 1. rewrite (SEQ ls' (proj1 TS')) at 1. rewrite !map_map, !zipw_maps.
    eapply UNIQ; [apply (masked_mean_spec (fun i => - Qsum (zipw Qmult (sharpen pow one (softmax (nth i logits_w []))) (log_softmax (nth i ls [])))))|].
    erewrite map_ext_in; [apply (masked_mean_spec (fun i => - Qsum (zipw Qmult (sharpen pow one (softmax (nth i logits_w []))) (log_softmax (nth i ls' [])))))|].
    intros i I. cbn beta. now rewrite (CH i I).
Qed.

(* C83: sharpening keeps the order of the classes, and gives a distribution unless the sum of the powers is under 1e-12. *)
Theorem C83_sharpening_partial : forall pow p t,
  pow_ok pow -> (forall x, In x p -> 0 <= x) -> sharpened pow p t ->
  (forall i j, (i < length p)%nat -> (j < length p)%nat -> (nth i t 0 <= nth j t 0 <-> nth i p 0 <= nth j p 0)) /\
  ((1 # 1000000000000) <= Qsum (map pow p) -> distribution t).
Proof.
  intros pow p t PW NN S. split; [now apply (sharpened_order pow PW)|]. intros T. now apply (sharpened_distribution pow PW p).
Qed.

(* C83 (refuted): sharpened probabilities are a distribution.  Temperature 1/50 and two equally probable classes. *)
Definition pow50 (x : Q) : Q := x ^ 50.
Lemma pow50_ok : pow_ok pow50.
Proof.
  split; [|reflexivity]. intros x y X Y. unfold pow50. split.
  - intros L. assert (PP : forall k x y, 0 <= x -> x < y -> 0 <= Qpower_positive x k /\ Qpower_positive x k < Qpower_positive y k).
    { clear. intros k. induction k as [k IH|k IH|]; intros x y X L.
      - destruct (IH x y X L) as [A B]. unfold Qpower_positive in *. cbn [pow_pos]. set (a := pow_pos Qmult x k) in *. set (b := pow_pos Qmult y k) in *.
        assert (a * a < b * b) by nra. split; nra.
      - destruct (IH x y X L) as [A B]. unfold Qpower_positive in *. cbn [pow_pos]. set (a := pow_pos Qmult x k) in *. set (b := pow_pos Qmult y k) in *. split; nra.
      - unfold Qpower_positive. cbn [pow_pos]. split; assumption. }
    apply (PP 50%positive x y X L).
  - intros E. now rewrite E.
Qed.
Theorem C83_sharpening_refuted :
  ~ (forall pow p, pow_ok pow -> distribution p -> distribution (sharpen pow false p)).
Proof.
  intros H. destruct (H pow50 [1 # 2; 1 # 2] pow50_ok) as [_ S].
  - split; [intros x [<-|[<-|[]]]; discriminate|reflexivity].
  - vm_compute in S. discriminate S.
Qed.

(* C83: DeFixMatch, hard labels: half the labelled losses of both views, plus lambda_u times the difference between the
   unlabelled average and the same average over the labelled rows treated as unlabelled. *)
Theorem C83_defixmatch_hard : forall softmax log_softmax ce argmax pow n m w lambda_u cutoff one logits_l logits_ls y logits_w logits_s,
  softmax_ok softmax -> argmax_ok argmax -> pow_ok pow -> (forall z, length (log_softmax z) = length z) ->
  table m w logits_l -> table m w logits_ls -> length y = m -> table n w logits_w -> table n w logits_s -> (0 < m)%nat -> (0 < n)%nat -> (0 < w)%nat ->
  (forall c, In c y -> (0 <= c < Z.of_nat w)%Z) ->
  exists (pseudo pseudo_l : nat -> Z) sup sup_s unsup anti loss,
    (forall i, (i < n)%nat -> most_likely (softmax (nth i logits_w [])) (pseudo i)) /\
    (forall i, (i < m)%nat -> most_likely (softmax (nth i logits_l [])) (pseudo_l i)) /\
    average (map (fun i => ce (nth i logits_l []) (nth i y 0%Z)) (seq 0 m)) sup /\
    average (map (fun i => ce (nth i logits_ls []) (nth i y 0%Z)) (seq 0 m)) sup_s /\
    average (map (fun i => ce (nth i logits_s []) (pseudo i)) (chosen n (fun i => confident cutoff (softmax (nth i logits_w []))))) unsup /\
    average (map (fun i => ce (nth i logits_ls []) (pseudo_l i)) (chosen m (fun i => confident cutoff (softmax (nth i logits_l []))))) anti /\
    defixmatch_loss softmax log_softmax ce argmax pow lambda_u cutoff true one logits_l logits_ls y logits_w logits_s = Ok loss /\
    loss == (sup + sup_s) / 2 + lambda_u * (unsup - anti).
Proof.
  intros softmax log_softmax ce argmax pow n m w lambda_u cutoff one ll lls y lw ls SM AM PW LS TL TLS LY TW TS M N W LAB.
  destruct (unsup_hard softmax log_softmax ce argmax pow (fun x => x) (fun x => x) SM LS AM PW n w cutoff W one lw ls TW TS) as (pseudo & P1 & P2).
  destruct (unsup_hard softmax log_softmax ce argmax pow (fun x => x) (fun x => x) SM LS AM PW m w cutoff W one ll lls TL TLS) as (pseudo_l & Q1 & Q2).
  pose proof (ce_mean_spec ce m ll y (proj1 TL) LY M) as SUP. pose proof (ce_mean_spec ce m lls y (proj1 TLS) LY M) as SUPS.
  destruct (check_step_spec n w n w m w ll y lw ls TL TW TS M N N) as [(E & _)|(_ & NO)]; [|exfalso; apply NO; auto].
  unfold defixmatch_loss, same_shape at 1. rewrite (table_width _ _ _ TL M), (table_width _ _ _ TLS M).
  replace (@List.length (list Q) ll) with m by (symmetry; apply TL). replace (@List.length row lls) with m by (symmetry; apply TLS).
  rewrite !Nat.eqb_refl. cbn [andb negb]. rewrite E. cbn [bind].
  eexists pseudo, pseudo_l, _, _, _, _, _. split; [exact P1|]. split; [exact Q1|]. split; [exact SUP|]. split; [exact SUPS|].
  split; [exact P2|]. split; [exact Q2|]. split; [reflexivity|]. cbv beta zeta. unfold Qdiv. change (/ 2) with (1 # 2). ring.
Qed.

(* C83: UDA without a schedule: labelled average plus lambda_u times the average divergence over the confident rows, both
   the confidence and the target being those of the logits divided by the temperature. *)
Theorem C83_uda : forall softmax log_softmax ce log exp sharp n m w lambda_u cutoff step total logits_l y logits_w logits_s,
  softmax_ok sharp -> (forall z, length (log_softmax z) = length z) ->
  table m w logits_l -> length y = m -> table n w logits_w -> table n w logits_s -> (0 < m)%nat -> (0 < n)%nat -> (0 < w)%nat ->
  (forall c, In c y -> (0 <= c < Z.of_nat w)%Z) ->
  exists sup unsup loss,
    average (map (fun i => ce (nth i logits_l []) (nth i y 0%Z)) (seq 0 m)) sup /\
    average (map (fun i => divergence w log (sharp (nth i logits_w [])) (log_softmax (nth i logits_s [])))
                 (chosen n (fun i => confident cutoff (sharp (nth i logits_w []))))) unsup /\
    uda_loss softmax log_softmax ce log exp sharp lambda_u cutoff "none" step total logits_l y logits_w logits_s = Ok loss /\
    loss == sup + lambda_u * unsup.
Proof.
  intros softmax log_softmax ce log exp sharp n m w lambda_u cutoff step total ll y lw ls SH LS TL LY TW TS M N W LAB.
  pose (am := fun _ : row => 0%Z).
  assert (KL : average (map (fun i => divergence w log (sharp (nth i lw [])) (log_softmax (nth i ls []))) (chosen n (fun i => confident cutoff (sharp (nth i lw [])))))
      (kept_mean (zipw (kl log_softmax log) (map sharp lw) ls) (mask_of cutoff (map sharp lw)))).
  { now apply unsup_kl. }
  pose proof (ce_mean_spec ce m ll y (proj1 TL) LY M) as SUP.
  destruct (check_step_spec n w n w m w ll y lw ls TL TW TS M N N) as [(E & _)|(_ & NO)]; [|exfalso; apply NO; auto].
  unfold uda_loss. rewrite E. cbn [bind String.eqb Ascii.eqb Bool.eqb].
  eexists _, _, _. split; [exact SUP|]. split; [exact KL|]. split; [reflexivity|apply Qeq_refl].
Qed.

(* C83: UDA with a schedule: the labelled part is the sum over the rows whose true class has a probability under the
   threshold, divided by the number of all rows. *)
Theorem C83_uda_schedule : forall softmax log_softmax ce log exp sharp n m w lambda_u cutoff schedule step total thr logits_l y logits_w logits_s,
  softmax_ok sharp -> (forall z, length (log_softmax z) = length z) ->
  table m w logits_l -> length y = m -> table n w logits_w -> table n w logits_s -> (0 < m)%nat -> (0 < n)%nat -> (0 < w)%nat ->
  (forall c, In c y -> (0 <= c < Z.of_nat w)%Z) -> schedule <> "none" -> tsa_threshold exp schedule step total (Z.of_nat w) = Ok thr ->
  exists sup unsup loss,
    sup * inject_Z (Z.of_nat m) ==
      Qsum (map (fun i => ce (nth i logits_l []) (nth i y 0%Z))
                (chosen m (fun i => negb (Qle_bool thr (nth (Z.to_nat (nth i y 0%Z)) (softmax (nth i logits_l [])) 0))))) /\
    average (map (fun i => divergence w log (sharp (nth i logits_w [])) (log_softmax (nth i logits_s [])))
                 (chosen n (fun i => confident cutoff (sharp (nth i logits_w []))))) unsup /\
    uda_loss softmax log_softmax ce log exp sharp lambda_u cutoff schedule step total logits_l y logits_w logits_s = Ok loss /\
    loss == sup + lambda_u * unsup.
Proof.
  intros softmax log_softmax ce log exp sharp n m w lambda_u cutoff schedule step total thr ll y lw ls SH LS TL LY TW TS M N W LAB SCH TSA.
  assert (KL : average (map (fun i => divergence w log (sharp (nth i lw [])) (log_softmax (nth i ls []))) (chosen n (fun i => confident cutoff (sharp (nth i lw [])))))
      (kept_mean (zipw (kl log_softmax log) (map sharp lw) ls) (mask_of cutoff (map sharp lw)))).
  { now apply unsup_kl. }
  pose proof (uda_sup softmax ce m ll y thr (proj1 TL) LY M) as SUP.
  destruct (check_step_spec n w n w m w ll y lw ls TL TW TS M N N) as [(E & _)|(_ & NO)]; [|exfalso; apply NO; auto].
  unfold uda_loss. rewrite E. cbn [bind]. rewrite (proj2 (String.eqb_neq schedule "none") SCH).
  rewrite (table_width _ _ _ TL M), TSA. cbn [bind].
  eexists _, _, _. split; [exact SUP|]. split; [exact KL|]. split; [reflexivity|apply Qeq_refl].
Qed.

(* C83: the threshold lies between 1/classes and 1 and never goes down. *)
Theorem C83_schedule : forall exp schedule s1 s2 total k t1 t2,
  exp_ok exp -> (0 <= s1 <= s2)%Z -> (s2 <= total)%Z -> (1 <= k)%Z ->
  tsa_threshold exp schedule s1 total k = Ok t1 -> tsa_threshold exp schedule s2 total k = Ok t2 ->
  1 / inject_Z k <= t1 /\ t1 <= t2 /\ t2 <= 1.
Proof.
  intros exp schedule s1 s2 total k t1 t2 EX S T K H1 H2. split; [|split].
  - apply (tsa_range exp schedule s1 total k t1 EX ltac:(lia) K H1).
  - exact (tsa_monotone exp schedule s1 s2 total k t1 t2 EX S K H1 H2).
  - apply (tsa_range exp schedule s2 total k t2 EX ltac:(lia) K H2).
Qed.

(* C83: Noisy Student: the average over the rows of which the teacher is confident, against a class most probable for the
   teacher (hard) or the divergence from the teacher's probabilities (soft). *)
Theorem C83_noisy_student : forall log_softmax ce argmax log sharp n w cutoff logits_w logits_s,
  softmax_ok sharp -> argmax_ok argmax -> (forall z, length (log_softmax z) = length z) ->
  table n w logits_w -> table n w logits_s -> (0 < w)%nat ->
  (exists pseudo : nat -> Z, (forall i, (i < n)%nat -> most_likely (sharp (nth i logits_w [])) (pseudo i)) /\
     average (map (fun i => ce (nth i logits_s []) (pseudo i)) (chosen n (fun i => confident cutoff (sharp (nth i logits_w [])))))
       (noisy_unsup log_softmax ce argmax log sharp cutoff true logits_w logits_s)) /\
  average (map (fun i => divergence w log (sharp (nth i logits_w [])) (log_softmax (nth i logits_s [])))
               (chosen n (fun i => confident cutoff (sharp (nth i logits_w [])))))
    (noisy_unsup log_softmax ce argmax log sharp cutoff false logits_w logits_s).
Proof.
  intros log_softmax ce argmax log sharp n w cutoff lw ls SH AM LS TW TS W. split.
  - now apply (unsup_noisy_hard ce argmax AM n w cutoff W sharp lw ls SH TW TS).
  - now apply (unsup_kl log_softmax log LS n w cutoff W sharp lw ls SH TW TS).
Qed.

(* C83: scoring the three batches in one call or in three makes no difference to a model that scores rows one by one. *)
Theorem C83_use_cat : forall (X : Type) (call : list X -> list row) f use_cat x_l x_w x_s,
  (forall xs, call xs = map f xs) -> three_logits call use_cat x_l x_w x_s = Ok (map f x_l, map f x_w, map f x_s).
Proof. intros. now apply three_logits_spec. Qed.

(* a concrete case: absolute values scaled to sum 1 for softmax, the first maximum, squares *)
Definition ex_softmax (z : row) : row :=
  let a := map Qabs z in
  if Qle_bool (Qsum a) 0 then map (fun _ => 1 / inject_Z (lenZ z)) z else map (fun x => x / Qsum a) a.
Fixpoint ex_argmax_nat (p : row) : nat :=
  match p with
  | [] => O
  | x :: r => match r with [] => O | _ => let j := ex_argmax_nat r in if Qle_bool (nth j r 0) x then O else S j end
  end.
Definition ex_argmax (p : row) : Z := Z.of_nat (ex_argmax_nat p).
Definition ex_ce (z : row) (c : Z) : Q := 1 - nth (Z.to_nat c) (ex_softmax z) 0.
Definition ex_log_softmax (z : row) : row := map (fun x => x - 1) (ex_softmax z).
Definition ex_exp (x : Q) : Q := if Qle_bool x 0 then 1 / (1 - x) else 1 + x.

Lemma ex_softmax_ok : softmax_ok ex_softmax.
Proof.
  intros z. unfold ex_softmax. destruct (Qle_bool (Qsum (map Qabs z)) 0) eqn:E.
  - split; [now rewrite map_length|]. split.
    + intros x I. apply in_map_iff in I. destruct I as (y & <- & _). unfold Qdiv. rewrite Qmult_1_l. apply Qinv_le_0_compat.
      change 0 with (inject_Z 0). rewrite <- Zle_Qle. unfold lenZ. lia.
    + intros N. rewrite Qsum_const. pose proof (lenZ_pos z N). field. intros Z0. rewrite Z0 in H. discriminate H.
  - assert (P : 0 < Qsum (map Qabs z)). { apply Qnot_le_lt. intros H. apply Qle_bool_iff in H. congruence. }
    split; [now rewrite !map_length|]. split.
    + intros x I. apply in_map_iff in I. destruct I as (y & <- & I). apply in_map_iff in I. destruct I as (u & <- & _).
      apply Qle_shift_div_l; [exact P|]. rewrite Qmult_0_l. apply Qabs_nonneg.
    + intros _. unfold Qdiv. rewrite Qsum_scale_r. rewrite map_id. apply Qmult_inv_r. lra.
Qed.
Lemma ex_argmax_ok : argmax_ok ex_argmax.
Proof.
  assert (H : forall p, p <> [] -> (ex_argmax_nat p < length p)%nat /\ forall j, (j < length p)%nat -> nth j p 0 <= nth (ex_argmax_nat p) p 0).
  { induction p as [|x r IH]; [easy|]. intros _. destruct r as [|y r']; [split; [cbn; lia|]; intros [|j] J; [apply Qle_refl|cbn in J; lia]|].
    destruct (IH ltac:(easy)) as [B M]. remember (y :: r') as r eqn:ER.
    assert (D : ex_argmax_nat (x :: r) = if Qle_bool (nth (ex_argmax_nat r) r 0) x then O else S (ex_argmax_nat r)) by (rewrite ER; reflexivity).
    rewrite D. destruct (Qle_bool (nth (ex_argmax_nat r) r 0) x) eqn:E.
    - apply Qle_bool_iff in E. split; [cbn; lia|]. intros [|j] J; [apply Qle_refl|]. cbn [nth length] in *. eapply Qle_trans; [apply M; lia|exact E].
    - assert (L : x <= nth (ex_argmax_nat r) r 0).
      { apply Qlt_le_weak, Qnot_le_lt. intros A. apply Qle_bool_iff in A. congruence. }
      split; [cbn [length]; lia|]. intros [|j] J; cbn [nth length] in *; [exact L|apply M; lia]. }
  intros p N. destruct (H p N) as [B M]. unfold ex_argmax. split; [unfold lenZ; lia|]. intros j J. rewrite Nat2Z.id. now apply M.
Qed.
Lemma ex_exp_ok : exp_ok ex_exp.
Proof.
  unfold ex_exp. split; [|split; [|reflexivity]].
  - intros x. destruct (Qle_bool x 0) eqn:E.
    + apply Qle_bool_iff in E. apply Qlt_shift_div_l; lra.
    + assert (0 < x) by (apply Qnot_le_lt; intros A; apply Qle_bool_iff in A; congruence). lra.
  - intros x y L. destruct (Qle_bool x 0) eqn:E, (Qle_bool y 0) eqn:F.
    + apply Qle_bool_iff in E, F. apply Qle_shift_div_l; [lra|]. setoid_replace (1 / (1 - x) * (1 - y)) with ((1 - y) / (1 - x)) by (field; lra).
      apply Qle_shift_div_r; lra.
    + apply Qle_bool_iff in E. assert (0 < y) by (apply Qnot_le_lt; intros A; apply Qle_bool_iff in A; congruence).
      apply Qle_trans with 1; [apply Qle_shift_div_r; lra|lra].
    + exfalso. apply Qle_bool_iff in F. assert (x <= 0) as G by lra. apply Qle_bool_iff in G. congruence.
    + lra.
Qed.
Example C83_satisfiable :
  softmax_ok ex_softmax /\ argmax_ok ex_argmax /\ pow_ok pow50 /\ exp_ok ex_exp /\
  table 2 2 [[9; 1]; [1; 1]] /\
  (exists v, fixmatch_loss ex_softmax ex_log_softmax ex_ce ex_argmax pow50 2 (9 # 10) true false [[1; 3]] [1%Z] [[9; 1]; [1; 1]] [[1; 1]; [0; 1]] = Ok v /\ v == (1 # 4) + 2 * (1 # 2)) /\
  (exists v, tsa_threshold ex_exp "linear" 1 4 2 = Ok v /\ v == (5 # 8)).
Proof.
  split; [exact ex_softmax_ok|]. split; [exact ex_argmax_ok|]. split; [exact pow50_ok|]. split; [exact ex_exp_ok|].
  split; [split; [reflexivity|]; intros r [<-|[<-|[]]]; reflexivity|].
  split; eexists; (split; [vm_compute; reflexivity|reflexivity]).
Qed.

Print Assumptions C83_fixmatch_hard.
Print Assumptions C83_fixmatch_soft.
Print Assumptions C83_refuses.
Print Assumptions C83_unconfident_rows_are_ignored.
Print Assumptions C83_sharpening_partial.
Print Assumptions C83_sharpening_refuted.
Print Assumptions C83_defixmatch_hard.
Print Assumptions C83_uda.
Print Assumptions C83_uda_schedule.
Print Assumptions C83_schedule.
Print Assumptions C83_noisy_student.
Print Assumptions C83_use_cat.
