(* Lemmas about Meta Pseudo Labels, Deep Co-Training, the Pi-Model and VAT. *)
From Coq Require Import QArith Qminmax Permutation Lqa Lia ZifyBool ZifyNat.
From Verif Require Import Prelude QFacts ListFacts EnsembleModel DeepBatchModel DeepBatchSpec DeepBatchProofs DeepLossModel DeepLossSpec DeepLossProofs DeepThreshSpec DeepThreshProofs DeepEmaModel DeepEmaSpec DeepEmaProofs TriNetProofs DeepPairModel DeepPairSpec.
Local Open Scope Z_scope.
Local Open Scope Q_scope.
Local Open Scope list_scope.

Lemma check_models_spec same ids1 ids2 : match check_models same ids1 ids2 with
  | Ok _ => separate same ids1 ids2
  | Err e => e = InductiveValidationError /\ ~ separate same ids1 ids2 end.
Proof.
  unfold check_models, separate. destruct same; [split; [reflexivity|now intros [H _]]|]. destruct (existsb _ ids2) eqn:E.
  - split; [reflexivity|]. intros [_ H]. apply existsb_exists in E. destruct E as (i & I & M). apply memZ_In in M. now apply (H i).
  - split; [reflexivity|]. intros i I J. apply Bool.not_true_iff_false in E. apply E. apply existsb_exists. exists i. split; [exact J|]. now apply memZ_In.
Qed.

Lemma row_average_mean n f : (0 < n)%nat -> row_average n f (Qmean (map f (seq 0 n))).
Proof. intros N. apply average_mean. destruct n; [lia|]. cbn. discriminate. Qed.
Lemma row_average_ext n f g v : (forall r, (r < n)%nat -> f r == g r) -> row_average n f v -> row_average n g v.
Proof. intros H. apply average_ext, Forall2_map_same. intros r I. apply in_seq in I. apply H. lia. Qed.

(* the mean of the soft cross entropies of a batch *)
Lemma soft_rows_spec log_softmax n k targets logits : (forall z, length (log_softmax z) = length z) -> (0 < n)%nat -> table n k targets -> table n k logits ->
  row_average n (fun r => soft_cross_entropy k (nth r targets []) (log_softmax (nth r logits []))) (Qmean (soft_ce_rows log_softmax targets logits)).
Proof.
  intros LS N T Z. unfold soft_ce_rows. rewrite (zipw_seq _ targets logits [] []) by (rewrite (proj1 T), (proj1 Z); reflexivity). rewrite (proj1 T).
  eapply row_average_ext; [|apply row_average_mean, N]. intros r R. cbv beta. apply soft_ce_spec; [now apply (table_nth n)|]. rewrite LS. now apply (table_nth n).
Qed.
Lemma nth_softmax (f : list Q -> list Q) n k l r : table n k l -> (r < n)%nat -> nth r (map f l) [] = f (nth r l []).
Proof. intros T R. apply nth_map. now rewrite (proj1 T). Qed.

(* ------------------------------------------------------------------ Meta Pseudo Labels *)
Section Mpl.
Variable softmax log_softmax sharp : list Q -> list Q.
Variable ce : list Q -> Z -> Q.
Variable cfg : mpl_config.
Variable t_l t_w t_s : Z -> list nat -> list (list Q).
Variable s_s : Z -> list nat -> list (list Q).
Variable s_l : Z -> Z -> list nat -> list (list Q).
Variable y : list Z.
Variables k n_l n_u : nat.
Variable b : Z.
Hypothesis SM : softmax_ok softmax.
Hypothesis SH : softmax_ok sharp.
Hypothesis LS : forall z, length (log_softmax z) = length z.
Hypothesis K : (0 < k)%nat.
Hypothesis Y : length y = n_l /\ forall c, In c y -> (0 <= c < Z.of_nat k)%Z.
Hypothesis TL : forall t idx, table (length idx) k (t_l t idx).
Hypothesis TW : forall t idx, table (length idx) k (t_w t idx).
Hypothesis TS : forall t idx, table (length idx) k (t_s t idx).
Hypothesis SS : forall t idx, table (length idx) k (s_s t idx).
Hypothesis SL : forall t u idx, table (length idx) k (s_l t u idx).

Lemma check_mpl_spec : match check_mpl cfg with Ok _ => mpl_numbers_ok cfg | Err e => e = InductiveValidationError /\ ~ mpl_numbers_ok cfg end.
Proof using.
  unfold check_mpl, mpl_numbers_ok.
  destruct (Qle_bool 0 (uda_weight cfg)) eqn:E1; cbn [negb]; [apply Qle_bool_iff in E1|apply Qle_bool_false in E1; split; [reflexivity|intros H; lra]].
  destruct (Qle_bool 0 (uda_threshold cfg)) eqn:E2; cbn [negb andb]; [apply Qle_bool_iff in E2|apply Qle_bool_false in E2; split; [reflexivity|intros H; lra]].
  destruct (Qle_bool (uda_threshold cfg) 1) eqn:E3; cbn [negb andb]; [apply Qle_bool_iff in E3|apply Qle_bool_false in E3; split; [reflexivity|intros H; lra]].
  destruct (Qle_bool 0 (smoothing cfg)) eqn:E4; cbn [negb orb]; [apply Qle_bool_iff in E4|apply Qle_bool_false in E4; split; [reflexivity|intros H; lra]].
  destruct (Qle_bool 1 (smoothing cfg)) eqn:E5; cbn [negb]; [apply Qle_bool_iff in E5; split; [reflexivity|intros H; lra]|apply Qle_bool_false in E5].
  destruct (Qle_bool 0 (mpl_ema cfg)) eqn:E6; cbn [negb andb]; [apply Qle_bool_iff in E6|apply Qle_bool_false in E6; split; [reflexivity|intros H; lra]].
  destruct (Qle_bool 1 (mpl_ema cfg)) eqn:E7; cbn [negb]; [apply Qle_bool_iff in E7; split; [reflexivity|intros H; lra]|apply Qle_bool_false in E7].
  destruct (Qle_bool 0 (mpl_weight cfg)) eqn:E8; cbn [negb]; [apply Qle_bool_iff in E8|apply Qle_bool_false in E8; split; [reflexivity|intros H; lra]].
  repeat split; assumption.
Qed.

Lemma smoothed_row z c : length z = k -> (0 <= c < Z.of_nat k)%Z ->
  soft_cross_entropy k (smoothed_target (smoothing cfg) k c) z == (1 - smoothing cfg) * - nth (Z.to_nat c) z 0 + smoothing cfg * - (Qsum z / inject_Z (Z.of_nat k)).
Proof using All.
  intros LZ C. unfold soft_cross_entropy. assert (KP : 0 < inject_Z (Z.of_nat k)) by (apply inject_pos; lia).
  rewrite (Qsum_ext _ (fun j => (1 - smoothing cfg) * (if (Z.of_nat j =? c)%Z then nth j z 0 else 0) + (smoothing cfg / inject_Z (Z.of_nat k)) * nth j z 0)).
  - assert (SZ : map (fun j => nth j z 0) (seq 0 k) = z) by (rewrite <- LZ; apply nth_seq). rewrite Qsum_plus, !Qsum_scale, SZ.
    assert (P : Qsum (map (fun j => if (Z.of_nat j =? c)%Z then nth j z 0 else 0) (seq 0 k)) == nth (Z.to_nat c) z 0).
    { rewrite (Qsum_ext _ (fun j => nth (Z.to_nat c) z 0 * (if (Z.of_nat j =? c)%Z then 1 else 0))).
      - rewrite Qsum_scale. change (map (fun j => if (Z.of_nat j =? c)%Z then 1 else 0) (seq 0 k)) with (one_hot k c). rewrite one_hot_sum by exact C. ring.
      - intros j _. destruct (Z.eqb_spec (Z.of_nat j) c) as [<-|_]; [rewrite Nat2Z.id; ring|ring]. }
    rewrite P. field. lra.
  - intros j J. apply in_seq in J. unfold smoothed_target. rewrite (nth_map _ _ j 0%nat) by (rewrite seq_length; lia). rewrite seq_nth by lia. cbn [Nat.add]. destruct (Z.of_nat j =? c)%Z; field; lra.
Qed.

Lemma labelled_spec t il yb : il <> [] -> yb = map (fun i => nth i y 0%Z) il -> (forall c, In c yb -> (0 <= c < Z.of_nat k)%Z) -> mpl_numbers_ok cfg ->
  exists v, smoothed_ce log_softmax ce (smoothing cfg) (t_l t il) yb = Ok v /\ labelled_loss log_softmax ce cfg t_l y k t il v.
Proof using All.
  intros NE -> YB N. assert (L : (0 < length il)%nat) by (destruct il; [easy|cbn; lia]). unfold smoothed_ce, labelled_loss.
  assert (LB : forall r, (r < length il)%nat -> nth r (map (fun i => nth i y 0%Z) il) 0%Z = label_of y il r) by (intros r R; unfold label_of; apply (nth_map (fun i => nth i y 0%Z)); exact R).
  destruct (Qle_bool (smoothing cfg) 0).
  - eexists. split; [reflexivity|]. pose proof (ce_mean_spec ce (length il) (t_l t il) _ L (proj1 (TL t il)) (map_length (fun i => nth i y 0%Z) il)) as A. revert A.
    apply row_average_ext. intros r R. rewrite LB by exact R. reflexivity.
  - destruct (Qle_bool 1 (smoothing cfg)) eqn:E; [apply Qle_bool_iff in E; unfold mpl_numbers_ok in N; lra|]. eexists. split; [reflexivity|].
    rewrite (table_width (length il) k) by auto.
    assert (TT : table (length il) k (map (smoothed_target (smoothing cfg) k) (map (fun i => nth i y 0%Z) il))).
    { split; [now rewrite !map_length|]. intros x I. apply in_map_iff in I. destruct I as (c & <- & _). unfold smoothed_target. now rewrite map_length, seq_length. }
    eapply row_average_ext; [|apply (soft_rows_spec log_softmax (length il) k); auto]. intros r R. cbv beta.
    rewrite (nth_map _ _ r 0%Z) by (rewrite map_length; exact R). rewrite LB by exact R. apply smoothed_row; [rewrite LS; now apply (table_nth (length il))|].
    rewrite <- LB by exact R. apply YB, nth_In. now rewrite map_length.
Qed.

Lemma uda_spec t iu : iu <> [] -> 0 < uda_temperature cfg -> mpl_numbers_ok cfg ->
  exists v, teacher_uda log_softmax sharp (uda_temperature cfg) (uda_threshold cfg) (t_w t iu) (t_s t iu) = Ok v /\ consistency log_softmax sharp cfg t_w t_s k t iu v.
Proof using All.
  intros NE T N. assert (L : (0 < length iu)%nat) by (destruct iu; [easy|cbn; lia]). unfold teacher_uda, consistency, sure.
  destruct (Qle_bool (uda_temperature cfg) 0) eqn:E; [apply Qle_bool_iff in E; lra|]. eexists. split; [reflexivity|].
  set (n := length iu) in *. assert (TWn : table n k (t_w t iu)) by apply TW. assert (TSn : table n k (t_s t iu)) by apply TS.
  assert (TP : table n k (map sharp (t_w t iu))) by (apply table_map; [exact TWn|intros r; apply SH]).
  assert (EP : map sharp (t_w t iu) = map (fun r => sharp (nth r (t_w t iu) [])) (seq 0 n)).
  { rewrite <- (nth_seq [] (t_w t iu)) at 1. rewrite map_map. now rewrite (proj1 TWn). }
  assert (EM : (if Qle_bool (uda_threshold cfg) 0 then map (fun _ => 1) (map sharp (t_w t iu)) else mask_of (uda_threshold cfg) (map sharp (t_w t iu)))
    = map (fun r => if confident (uda_threshold cfg) (sharp (nth r (t_w t iu) [])) then 1 else 0) (seq 0 n)).
  { rewrite EP. destruct (Qle_bool (uda_threshold cfg) 0) eqn:E0.
    - apply Qle_bool_iff in E0. rewrite map_map. apply map_ext_in. intros r I. apply in_seq in I. replace (confident _ _) with true; [reflexivity|]. symmetry.
      assert (LR : length (sharp (nth r (t_w t iu) [])) = k) by (rewrite (proj1 (SH _)); apply (table_nth n); [exact TWn|lia]).
      destruct (SH (nth r (t_w t iu) [])) as (_ & P & _). destruct (sharp (nth r (t_w t iu) [])) as [|x p]; [cbn in LR; lia|].
      cbn. replace (Qle_bool (uda_threshold cfg) x) with true; [reflexivity|]. symmetry. apply Qle_bool_iff. specialize (P x (or_introl eq_refl)). lra.
    - apply mask_spec. intros r R Z. assert (LR : length (sharp (nth r (t_w t iu) [])) = k) by (rewrite (proj1 (SH _)); apply (table_nth n); [exact TWn|lia]). rewrite Z in LR. cbn in LR. lia. }
  rewrite EM. clear EM. unfold soft_ce_rows. rewrite (zipw_seq _ (map sharp (t_w t iu)) (t_s t iu) [] []) by (rewrite (proj1 TP), (proj1 TSn); reflexivity). rewrite (proj1 TP).
  eapply average_ext; [|apply kept_mean_spec]. apply Forall2_map_same. intros r I. unfold chosen in I. apply filter_In in I. destruct I as [I _]. apply in_seq in I. cbv beta.
  rewrite (soft_ce_spec k); [|apply (table_nth n); [exact TP|lia]|rewrite LS; apply (table_nth n); [exact TSn|lia]].
  rewrite (nth_softmax sharp n k) by (assumption || lia). reflexivity.
Qed.

Lemma change_spec t il : il <> [] -> change ce s_l y t il (ce_mean ce (s_l t (t + 1) il) (map (fun i => nth i y 0%Z) il) - ce_mean ce (s_l t t il) (map (fun i => nth i y 0%Z) il)).
Proof using All.
  intros NE. assert (L : (0 < length il)%nat) by (destruct il; [easy|cbn; lia]).
  assert (LB : forall r, (r < length il)%nat -> nth r (map (fun i => nth i y 0%Z) il) 0%Z = label_of y il r) by (intros r R; unfold label_of; apply (nth_map (fun i => nth i y 0%Z)); exact R).
  eexists _, _. split; [|split; [|reflexivity]].
  - pose proof (ce_mean_spec ce (length il) (s_l t t il) _ L (proj1 (SL t t il)) (map_length (fun i => nth i y 0%Z) il)) as A. revert A.
    apply row_average_ext. intros r R. rewrite LB by exact R. reflexivity.
  - pose proof (ce_mean_spec ce (length il) (s_l t (t + 1) il) _ L (proj1 (SL t (t + 1)%Z il)) (map_length (fun i => nth i y 0%Z) il)) as A. revert A.
    apply row_average_ext. intros r R. rewrite LB by exact R. reflexivity.
Qed.

Lemma mpl_step_spec t il iu before : proper_batch n_l b il -> proper_batch n_u b iu -> 0 < uda_temperature cfg -> mpl_numbers_ok cfg ->
  exists c s v, mpl_step softmax log_softmax ce sharp cfg t_l t_w t_s s_s s_l y t il iu (running (fun x => x) (mpl_ema cfg) 0 before) = Ok ((s, v), running (fun x => x) (mpl_ema cfg) 0 (before ++ [c])) /\
    change ce s_l y t il c /\ student_objective softmax log_softmax t_s s_s k t iu s /\
    teacher_objective softmax log_softmax sharp ce cfg t_l t_w t_s y k t il iu (before ++ [c]) v.
Proof using All.
  intros (NL & _ & _ & BL) (NU & _ & _ & BU) T N. assert (LL : (0 < length il)%nat) by (destruct il; [easy|cbn; lia]). assert (LU : (0 < length iu)%nat) by (destruct iu; [easy|cbn; lia]).
  unfold mpl_step. set (yb := map (fun i => nth i y 0%Z) il).
  assert (YB : forall c, In c yb -> (0 <= c < Z.of_nat k)%Z).
  { intros c I. unfold yb in I. apply in_map_iff in I. destruct I as (i & <- & I). apply (proj2 Y), nth_In. rewrite (proj1 Y). now apply BL. }
  rewrite (check_step_ok (length il) (length iu) k) by auto. cbn [bind].
  destruct (labelled_spec t il yb NL eq_refl YB N) as (sup & -> & SUP). cbn [bind]. destruct (uda_spec t iu NU T N) as (uda & -> & UDA). cbn [bind].
  rewrite (table_width (length il) k (t_l t il)), (table_width (length il) k (s_l t t il)), (table_width (length il) k (s_l t (t + 1)%Z il)), (table_width (length iu) k) by auto. rewrite Nat.eqb_refl. cbn [negb].
  pose proof (change_spec t il NL) as CH. fold yb in CH. set (c := ce_mean ce (s_l t (t + 1) il) yb - ce_mean ce (s_l t t il) yb) in *.
  exists c. eexists _, _. split; [rewrite running_app; reflexivity|]. split; [exact CH|].
  assert (TP : table (length iu) k (map softmax (t_s t iu))) by (apply table_map; [apply TS|intros r; apply SM]). split.
  - eapply row_average_ext; [|apply (soft_rows_spec log_softmax (length iu) k (map softmax (t_s t iu)) (s_s t iu)); auto]. intros r R. cbv beta. rewrite (nth_softmax softmax (length iu) k) by auto. reflexivity.
  - exists sup, uda, (entropy_loss softmax log_softmax (t_s t iu)). split; [exact SUP|]. split; [exact UDA|]. split.
    + eapply row_average_ext; [|apply (soft_rows_spec log_softmax (length iu) k (map softmax (t_s t iu)) (t_s t iu)); auto]. intros r R. cbv beta. rewrite (nth_softmax softmax (length iu) k) by auto. reflexivity.
    + rewrite last_last. rewrite running_app. set (ma := running _ _ _ before). change (running (fun x => x) (mpl_ema cfg) ma [c]) with (mpl_ema cfg * ma + (1 - mpl_ema cfg) * c).
      destruct (Qeq_bool (uda_weight cfg) 0) eqn:E1; destruct (Qeq_bool (mpl_weight cfg) 0) eqn:E2;
        repeat match goal with H : Qeq_bool _ 0 = true |- _ => apply Qeq_bool_eq in H; rewrite H end; ring.
Qed.

Lemma mpl_steps_spec steps : 0 < uda_temperature cfg -> mpl_numbers_ok cfg -> good_steps n_l n_u b steps -> forall t before,
  exists losses changes, mpl_steps softmax log_softmax ce sharp cfg t_l t_w t_s s_s s_l y t steps (running (fun x => x) (mpl_ema cfg) 0 before) = Ok losses /\
    length losses = length steps /\ length changes = length steps /\
    forall i il iu, nth_error steps i = Some (il, iu) ->
      change ce s_l y (t + Z.of_nat i) il (nth i changes 0) /\ student_objective softmax log_softmax t_s s_s k (t + Z.of_nat i) iu (fst (nth i losses (0, 0))) /\
      teacher_objective softmax log_softmax sharp ce cfg t_l t_w t_s y k (t + Z.of_nat i) il iu (before ++ firstn (S i) changes) (snd (nth i losses (0, 0))).
Proof using All.
  intros T N. induction steps as [|[il iu] steps IH]; intros GS t before.
  - exists [], []. repeat split; try reflexivity; destruct i; discriminate.
  - destruct (GS il iu (or_introl eq_refl)) as [PL PU]. destruct (mpl_step_spec t il iu before PL PU T N) as (c & s & v & E & C & ST & TE).
    destruct (IH (fun a d I => GS a d (or_intror I)) (t + 1)%Z (before ++ [c])) as (losses & changes & E2 & L1 & L2 & H).
    exists ((s, v) :: losses), (c :: changes). cbn [mpl_steps]. rewrite E. cbn [bind]. rewrite E2. cbn [bind]. split; [reflexivity|]. split; [cbn; now rewrite L1|]. split; [cbn; now rewrite L2|].
    intros [|i] il' iu' I; cbn [nth_error] in I.
    + injection I as <- <-. rewrite Z.add_0_r. cbn [nth fst snd firstn]. exact (conj C (conj ST TE)).
    + destruct (H i il' iu' I) as (A1 & A2 & A3). replace (t + Z.of_nat (S i))%Z with (t + 1 + Z.of_nat i)%Z by lia. cbn [nth]. split; [exact A1|]. split; [exact A2|].
      rewrite <- app_assoc in A3. exact A3.
Qed.
End Mpl.

Lemma fit_steps {St} (G : Gen St) n_l n_u b max_epochs sl su epochs : gen_ok G -> fit_batches G n_l n_u b max_epochs sl su = Ok epochs ->
  (0 < n_l)%nat /\ (0 < n_u)%nat /\ (0 < b)%Z /\ (0 < max_epochs)%Z /\ good_steps n_l n_u b (concat epochs) /\
  lenZ (concat epochs) = (max_epochs * steps_per_epoch (Z.of_nat n_l) (Z.of_nat n_u) b)%Z /\ (0 < steps_per_epoch (Z.of_nat n_l) (Z.of_nat n_u) b)%Z /\ concat epochs <> [].
Proof.
  intros GO E. pose proof (fit_batches_spec G n_l n_u b max_epochs sl su GO) as FB. rewrite E in FB. destruct FB as (NL & NU & B & ME & LE & k_l & k_u & JL & JU & FB).
  set (m := steps_per_epoch (Z.of_nat n_l) (Z.of_nat n_u) b).
  assert (EM : Z.max k_l k_u = m).
  { unfold m, steps_per_epoch. rewrite (just_enough_unique _ _ _ _ B JL (num_batches_enough (Z.of_nat n_l) b ltac:(lia) B)).
    now rewrite (just_enough_unique _ _ _ _ B JU (num_batches_enough (Z.of_nat n_u) b ltac:(lia) B)). }
  rewrite EM in FB. assert (MP : (0 < m)%Z) by (rewrite <- EM; unfold just_enough in *; nia). rewrite Forall_forall in FB.
  assert (LC : lenZ (concat epochs) = (max_epochs * m)%Z) by (rewrite (concat_len m); [now rewrite LE|intros x I; now apply FB]).
  repeat (split; [assumption|]). split; [|split; [exact LC|split; [exact MP|]]].
  - intros il iu I. apply in_concat in I. destruct I as (st & I & J). destruct (FB st I) as (_ & F1 & _ & F2 & _). rewrite Forall_forall in F1, F2.
    split; [apply F1; now apply (in_map fst) in J|apply F2; now apply (in_map snd) in J].
  - intros Z. rewrite Z in LC. unfold lenZ in LC. cbn in LC. nia.
Qed.

Lemma mpl_fit_spec {St} (G : Gen St) softmax log_softmax sharp ce cfg t_l t_w t_s s_s s_l same ids_t ids_s y n_l n_u n_s n_ls b max_epochs sl su k :
  gen_ok G -> softmax_ok softmax -> softmax_ok sharp -> (forall z, length (log_softmax z) = length z) -> (0 < k)%nat ->
  length y = n_l -> (forall c, In c y -> (0 <= c < Z.of_nat k)%Z) ->
  (forall t idx, table (length idx) k (t_l t idx)) -> (forall t idx, table (length idx) k (t_w t idx)) -> (forall t idx, table (length idx) k (t_s t idx)) ->
  (forall t idx, table (length idx) k (s_s t idx)) -> (forall t u idx, table (length idx) k (s_l t u idx)) ->
  match mpl_fit softmax log_softmax ce sharp G cfg t_l t_w t_s s_s s_l same ids_t ids_s y n_l n_u n_s n_ls b max_epochs sl su with
  | Ok losses =>
      separate same ids_t ids_s /\ mpl_numbers_ok cfg /\ 0 < uda_temperature cfg /\ n_s = n_u /\ n_ls = n_l /\
      exists epochs changes, fit_batches G n_l n_u b max_epochs sl su = Ok epochs /\ length losses = length (concat epochs) /\ length changes = length (concat epochs) /\
      forall t il iu, nth_error (concat epochs) t = Some (il, iu) ->
        change ce s_l y (Z.of_nat t) il (nth t changes 0) /\ student_objective softmax log_softmax t_s s_s k (Z.of_nat t) iu (fst (nth t losses (0, 0))) /\
        teacher_objective softmax log_softmax sharp ce cfg t_l t_w t_s y k (Z.of_nat t) il iu (firstn (S t) changes) (snd (nth t losses (0, 0)))
  | Err e => e = InductiveValidationError /\
      (n_l = 0%nat \/ n_u = 0%nat \/ n_s <> n_u \/ n_ls <> n_l \/ ~ separate same ids_t ids_s \/ (b <= 0)%Z \/ (max_epochs <= 0)%Z \/ ~ mpl_numbers_ok cfg \/ uda_temperature cfg <= 0)
  end.
Proof.
  intros GO SM SH LS K LY Y TL TW TS SS SL. unfold mpl_fit.
  destruct (Nat.eqb_spec n_l 0) as [E1|E1]; cbn [orb]; [split; [reflexivity|tauto]|]. destruct (Nat.eqb_spec n_u 0) as [E2|E2]; cbn [orb]; [split; [reflexivity|tauto]|].
  destruct (Nat.eqb_spec n_s 0) as [E3|E3]; [split; [reflexivity|lia]|]. destruct (Nat.eqb_spec n_u n_s) as [E4|E4]; cbn [negb]; [|split; [reflexivity|lia]].
  destruct (Nat.eqb_spec n_ls n_l) as [E5|E5]; cbn [negb]; [|split; [reflexivity|lia]].
  pose proof (check_models_spec same ids_t ids_s) as CM. destruct (check_models same ids_t ids_s) as [[]|e]; cbn [bind]; [|destruct CM as [-> CM]; split; [reflexivity|tauto]].
  pose proof (fit_batches_spec G n_l n_u b max_epochs sl su GO) as FB.
  destruct (fit_batches G n_l n_u b max_epochs sl su) as [epochs|e] eqn:EF; cbn [bind]; [|destruct FB as [-> N]; split; [reflexivity|lia]]. clear FB.
  destruct (fit_steps G n_l n_u b max_epochs sl su epochs GO EF) as (_ & _ & B & ME & GS & LC & MP & NE).
  pose proof (check_mpl_spec cfg) as CN. destruct (check_mpl cfg) as [[]|e]; cbn [bind]; [|destruct CN as [-> CN]; split; [reflexivity|tauto]].
  destruct (Qlt_le_dec 0 (uda_temperature cfg)) as [T|T].
  - destruct (mpl_steps_spec softmax log_softmax sharp ce cfg t_l t_w t_s s_s s_l y k n_l n_u b SM SH LS K (conj LY Y) TL TW TS SS SL (concat epochs) T CN GS 0%Z []) as (losses & changes & E & L1 & L2 & H).
    change (running (fun x => x) (mpl_ema cfg) 0 []) with 0 in E. rewrite E. split; [exact CM|]. split; [exact CN|]. split; [exact T|]. split; [congruence|]. split; [exact E5|].
    exists epochs, changes. split; [reflexivity|]. split; [exact L1|]. split; [exact L2|]. intros t il iu I. exact (H t il iu I).
  - destruct (concat epochs) as [|[il iu] steps] eqn:EC; [easy|]. destruct (GS il iu (or_introl eq_refl)) as [(NL & _ & _ & BL) (NU & _ & _ & BU)].
    cbn [mpl_steps]. unfold mpl_step.
    assert (YB : forall c, In c (map (fun i => nth i y 0%Z) il) -> (0 <= c < Z.of_nat k)%Z).
    { intros c I. apply in_map_iff in I. destruct I as (i & <- & I). apply Y, nth_In. rewrite LY. now apply BL. }
    rewrite (check_step_ok (length il) (length iu) k) by (auto; destruct il, iu; cbn; try easy; lia). cbn [bind].
    destruct (labelled_spec softmax log_softmax sharp ce cfg t_l t_w t_s s_s s_l y k n_l n_u b SM SH LS K (conj LY Y) TL TW TS SS SL 0%Z il _ NL eq_refl YB CN) as (sup & -> & _). cbn [bind].
    unfold teacher_uda. apply Qle_bool_iff in T. rewrite T. cbn [bind]. apply Qle_bool_iff in T. split; [reflexivity|tauto].
Qed.

(* ------------------------------------------------------------------ Pi-Model *)
Section Pi.
Variable softmax : list Q -> list Q.
Variable ce : list Q -> Z -> Q.
Variable net_l net_w net_s : Z -> list nat -> list (list Q).
Variable y : list Z.
Variable lambda_u : Q.
Variables n_l n_u n_s k : nat.
Variable b warmup : Z.
Hypothesis SM : softmax_ok softmax.
Hypothesis K : (0 < k)%nat.
Hypothesis W : (0 <= warmup)%Z.
Hypothesis Y : length y = n_l /\ forall c, In c y -> (0 <= c < Z.of_nat k)%Z.
Hypothesis TL : forall t idx, table (length idx) k (net_l t idx).
Hypothesis TW : forall t idx, table (length idx) k (net_w t idx).
Hypothesis TS : forall t idx, table (length idx) k (net_s t idx).

Lemma pi_steps_spec steps : good_steps n_l n_u b steps -> forall t, (0 <= t)%Z ->
  match pi_steps softmax ce net_l net_w net_s y lambda_u n_s warmup t steps with
  | Ok losses => (forall il iu i, In (il, iu) steps -> In i iu -> (i < n_s)%nat) /\ length losses = length steps /\
      forall s il iu, nth_error steps s = Some (il, iu) -> pi_loss_spec softmax ce net_l net_w net_s y lambda_u k warmup (t + Z.of_nat s) il iu (nth s losses 0)
  | Err e => e = IndexError /\ exists il iu i, In (il, iu) steps /\ In i iu /\ (n_s <= i)%nat
  end.
Proof using All.
  induction steps as [|[il iu] steps IH]; intros GS t T.
  - cbn. split; [intros ? ? ? []|]. split; [reflexivity|]. intros [|s]; discriminate.
  - destruct (GS il iu (or_introl eq_refl)) as [(NL & _ & NDL & BL) (NU & _ & NDU & BU)].
    assert (LL : (0 < length il)%nat) by (destruct il; [easy|cbn; lia]). assert (LU : (0 < length iu)%nat) by (destruct iu; [easy|cbn; lia]).
    set (yb := map (fun i => nth i y 0%Z) il).
    assert (YB : forall c, In c yb -> (0 <= c < Z.of_nat k)%Z).
    { intros c I. unfold yb in I. apply in_map_iff in I. destruct I as (i & <- & I). apply (proj2 Y), nth_In. rewrite (proj1 Y). now apply BL. }
    cbn [pi_steps]. unfold pi_step. destruct (existsb _ iu) eqn:EX; cbn [bind].
    { split; [reflexivity|]. apply existsb_exists in EX. destruct EX as (i & I & X). exists il, iu, i. split; [now left|]. split; [exact I|lia]. }
    fold yb. rewrite (check_step_ok (length il) (length iu) k) by auto. cbn [bind].
    specialize (IH (fun a d I => GS a d (or_intror I)) (t + 1)%Z ltac:(lia)).
    destruct (pi_steps softmax ce net_l net_w net_s y lambda_u n_s warmup (t + 1) steps) as [losses|e]; cbn [bind].
    2:{ destruct IH as (-> & a & c & i & I & J & Hi). split; [reflexivity|]. exists a, c, i. split; [now right|]. now split. }
    destruct IH as (IN & L & LS). split; [|split; [cbn; now rewrite L|]].
    { intros a c i [E|I] J; [|now apply (IN a c i)]. injection E as <- <-. destruct (Nat.lt_ge_cases i n_s) as [H|H]; [exact H|]. exfalso. apply Bool.not_true_iff_false in EX. apply EX. apply existsb_exists. exists i. split; [exact J|lia]. }
    intros [|s] il' iu' N; cbn [nth_error nth] in *.
    + injection N as <- <-. rewrite Z.add_0_r. eexists _, _, _. split; [|split; [|split; [|reflexivity]]].
      * pose proof (ce_mean_spec ce (length il) (net_l t il) yb LL (proj1 (TL _ il)) (map_length _ _)) as A. revert A.
        apply row_average_ext. intros r R. unfold yb, label_of. rewrite (nth_map _ _ r 0%nat) by lia. reflexivity.
      * apply mse_spec; try assumption; apply (softmax_table softmax k SM); auto.
      * apply warm_ramp; lia.
    + replace (t + Z.of_nat (S s))%Z with (t + 1 + Z.of_nat s)%Z by lia. now apply LS.
Qed.
End Pi.

Lemma pi_fit_spec {St} (G : Gen St) softmax ce net_l net_w net_s y lambda_u fraction n_l n_u n_s b max_epochs sl su k :
  gen_ok G -> softmax_ok softmax -> (0 < k)%nat -> length y = n_l -> (forall c, In c y -> (0 <= c < Z.of_nat k)%Z) ->
  (forall t idx, table (length idx) k (net_l t idx)) -> (forall t idx, table (length idx) k (net_w t idx)) -> (forall t idx, table (length idx) k (net_s t idx)) ->
  match pi_fit softmax ce G net_l net_w net_s y lambda_u fraction n_l n_u n_s b max_epochs sl su with
  | Ok losses => exists epochs warmup,
      fit_batches G n_l n_u b max_epochs sl su = Ok epochs /\ (n_u <= n_s)%nat /\ 0 <= lambda_u /\ 0 <= fraction /\
      ramp_length fraction (lenZ (concat epochs)) warmup /\ length losses = length (concat epochs) /\
      forall t il iu, nth_error (concat epochs) t = Some (il, iu) -> pi_loss_spec softmax ce net_l net_w net_s y lambda_u k warmup (Z.of_nat t) il iu (nth t losses 0)
  | Err InductiveValidationError => n_s = 0%nat \/ n_l = 0%nat \/ n_u = 0%nat \/ (b <= 0)%Z \/ (max_epochs <= 0)%Z \/ lambda_u < 0 \/ fraction < 0
  | Err e => e = IndexError /\ (n_s < n_u)%nat
  end.
Proof.
  intros GO SM K LY Y TL TW TS. unfold pi_fit. destruct (Nat.eqb_spec n_s 0) as [E0|E0]; [now left|].
  pose proof (fit_batches_spec G n_l n_u b max_epochs sl su GO) as FB.
  destruct (fit_batches G n_l n_u b max_epochs sl su) as [epochs|e] eqn:EF; cbn [bind]; [|destruct FB as [-> N]; lia].
  destruct (fit_steps G n_l n_u b max_epochs sl su epochs GO EF) as (_ & _ & B & ME & GS & LC & MP & NE).
  pose proof (check_numbers_spec lambda_u fraction) as CN. destruct (check_numbers lambda_u fraction) as [[]|ex]; cbn [bind]; [|destruct CN as [-> CN]; tauto].
  pose proof (pi_steps_spec softmax ce net_l net_w net_s y lambda_u n_l n_u n_s k b _ SM K (warmup_nonneg fraction (max_epochs * steps_per_epoch (Z.of_nat n_l) (Z.of_nat n_u) b)) (conj LY Y) TL TW TS (concat epochs) GS 0%Z ltac:(lia)) as PS.
  destruct (pi_steps _ _ _ _ _ _ _ _ _ _ _) as [losses|e].
  - destruct PS as (IN & L & LS). exists epochs. eexists. split; [reflexivity|]. split.
    + destruct (Nat.le_gt_cases n_u n_s) as [H|H]; [exact H|]. exfalso. destruct FB as (_ & NU & _ & _ & LE & k_l & k_u & JL & JU & FB).
      destruct epochs as [|st epochs]; [unfold lenZ in LE; cbn in LE; lia|]. inversion FB as [|? ? (_ & _ & _ & _ & EU) _]; subst.
      specialize (EU n_s H). assert (KU : (0 < k_u)%Z) by (unfold just_enough in JU; nia). assert (1 <= Z.max k_l k_u / k_u)%Z by (apply Z.div_le_lower_bound; lia).
      destruct (visits_In n_s (map snd st) ltac:(lia)) as (iu & I & J). apply in_map_iff in I. destruct I as ([il iu'] & Eq & I). cbn in Eq. subst iu'.
      specialize (IN il iu n_s ltac:(apply in_concat; exists st; split; [now left|exact I]) J). lia.
    + split; [tauto|]. split; [tauto|]. split; [rewrite LC; apply warmup_spec|]. split; [exact L|]. intros t il iu I. exact (LS t il iu I).
  - destruct PS as (-> & il & iu & i & I & J & H). split; [reflexivity|]. destruct (GS il iu I) as [_ (_ & _ & _ & BU)]. specialize (BU i J). lia.
Qed.

(* ------------------------------------------------------------------ VAT *)
Lemma scale_normalize_spec norm c d : norm_ok norm -> 0 < c -> Forall2 (stretched norm c) d (scale c (normalize norm d)).
Proof.
  intros [N0 N1] C. unfold scale, normalize. rewrite map_map. induction d as [|v d IH]; [constructor|]. cbn [map]. constructor; [|exact IH].
  assert (P : 0 < Qmax (norm v) tiny) by (apply Qlt_le_trans with tiny; [reflexivity|apply Q.le_max_r]).
  assert (F : 0 < / Qmax (norm v) tiny * c) by (apply Qmult_lt_0_compat; [now apply Qinv_lt_0_compat|exact C]).
  assert (S : Forall2 (fun a b => b == a * (/ Qmax (norm v) tiny * c)) v (map (fun x => x * c) (map (fun x => x / Qmax (norm v) tiny) v))).
  { rewrite map_map. generalize (Qmax (norm v) tiny). intros m. clear. induction v as [|x v IH]; [constructor|]. cbn [map]. constructor; [unfold Qdiv; ring|exact IH]. }
  pose proof (N1 _ v _ (Qlt_le_weak _ _ F) S) as E. split; [exists (/ Qmax (norm v) tiny * c); now split|]. rewrite E.
  assert (R : norm v * (/ Qmax (norm v) tiny * c) == (norm v / Qmax (norm v) tiny) * c) by (unfold Qdiv; ring). rewrite R. split.
  - assert (norm v / Qmax (norm v) tiny <= 1) by (apply Qle_shift_div_r; [exact P|rewrite Qmult_1_l; apply Q.le_max_l]). nra.
  - intros H. assert (X : Qmax (norm v) tiny == norm v) by (apply Q.max_l; exact H). rewrite X. field. rewrite X in P. lra.
Qed.

Section Vat.
Variable softmax log_softmax : list Q -> list Q.
Variable ce : list Q -> Z -> Q.
Variable log : Q -> Q.
Variable norm : list Q -> Q.
Variable clean : Z -> list nat -> list (list Q).
Variable gradient : Z -> nat -> list nat -> list (list Q) -> list (list Q) -> option (list (list Q)).
Variable moved : Z -> list nat -> list (list Q) -> list (list Q).
Variable randn : Z -> nat -> list (list Q).
Variables xi eps : Q.
Variable net_l : Z -> list nat -> list (list Q).
Variable y : list Z.
Variable lambda_u : Q.
Variable warmup iters : Z.
Variables n_l n_u k : nat.
Variable b : Z.
Hypothesis SM : softmax_ok softmax.
Hypothesis LS : forall z, length (log_softmax z) = length z.
Hypothesis K : (0 < k)%nat.
Hypothesis NO : norm_ok norm.
Hypothesis XI : 0 < xi.
Hypothesis EP : 0 < eps.
Hypothesis IT : (0 < iters)%Z.
Hypothesis W : (0 <= warmup)%Z.
Hypothesis Y : length y = n_l /\ forall c, In c y -> (0 <= c < Z.of_nat k)%Z.
Hypothesis TL : forall t idx, table (length idx) k (net_l t idx).
Hypothesis TC : forall t idx, table (length idx) k (clean t idx).
Hypothesis TM : forall t idx r, table (length idx) k (moved t idx r).

Lemma power_spec t iu probs n : forall i d,
  match power_iteration norm gradient xi t iu probs i n d with
  | Ok (tried, d2) => length tried = n /\ ascent norm xi (fun j => gradient t (i + j) iu probs) d tried d2
  | Err e => e = InductiveValidationError /\ exists j r, gradient t j iu probs r = None
  end.
Proof using All.
  induction n as [|n IH]; intros i d; cbn [power_iteration].
  - split; [reflexivity|]. exists [d]. split; [reflexivity|]. split; [reflexivity|]. split; [reflexivity|]. cbn. lia.
  - destruct (gradient t i iu probs (scale xi (normalize norm d))) as [g|] eqn:E; [|split; [reflexivity|eexists _, _; exact E]].
    specialize (IH (S i) g). destruct (power_iteration norm gradient xi t iu probs (S i) n g) as [[tried d2]|e]; cbn [bind]; [|exact IH].
    destruct IH as [L (ds & L1 & H0 & HL & H)]. split; [cbn; now rewrite L|]. exists (d :: ds). split; [cbn; now rewrite L1|]. split; [reflexivity|].
    split; [destruct ds; [discriminate L1|exact HL]|]. intros [|j] J; cbn [nth] in *.
    + split; [now apply scale_normalize_spec|]. rewrite Nat.add_0_r, H0. exact E.
    + rewrite <- Nat.add_succ_comm. apply H. cbn in J. lia.
Qed.

Lemma vat_loss_spec t iu : iu <> [] ->
  match vat_loss softmax log_softmax log norm clean gradient moved randn xi eps t iu iters with
  | Ok (v, tried, r) => adversarial norm xi eps (fun j => gradient t j iu (map softmax (clean t iu))) iters (randn t (length iu)) r /\
      row_average (length iu) (fun i => divergence k log (softmax (nth i (clean t iu) [])) (log_softmax (nth i (moved t iu r) []))) v
  | Err e => e = InductiveValidationError /\ exists j p d, gradient t j iu p d = None
  end.
Proof using All.
  intros NE. assert (LU : (0 < length iu)%nat) by (destruct iu; [easy|cbn; lia]). unfold vat_loss. destruct (Z.leb_spec iters 0) as [H|_]; [lia|].
  pose proof (power_spec t iu (map softmax (clean t iu)) (Z.to_nat iters) 0%nat (randn t (length iu))) as PS.
  destruct (power_iteration _ _ _ _ _ _ _ _ _) as [[tried d]|e]; cbn [bind]; [|destruct PS as (-> & j & r & N); split; [reflexivity|]; now exists j, (map softmax (clean t iu)), r].
  destruct PS as [L A]. split; [exists tried, d; split; [unfold lenZ; lia|]; split; [exact A|now apply scale_normalize_spec]|].
  set (r := scale eps (normalize norm d)).
  assert (TP : table (length iu) k (map softmax (clean t iu))) by (apply table_map; [apply TC|intros x; apply SM]).
  rewrite (zipw_seq _ (map softmax (clean t iu)) (moved t iu r) [] []) by (rewrite (proj1 TP), (proj1 (TM t iu r)); reflexivity). rewrite (proj1 TP).
  eapply row_average_ext; [|apply row_average_mean, LU]. intros i I. cbv beta. rewrite (kl_spec log_softmax log LS 0%nat k 0 K) by (apply (table_nth (length iu)); auto). rewrite (nth_softmax softmax (length iu) k) by auto. reflexivity.
Qed.

Lemma vat_steps_spec steps : good_steps n_l n_u b steps -> forall t, (0 <= t)%Z ->
  match vat_steps softmax log_softmax ce log norm clean gradient moved randn xi eps net_l y lambda_u warmup iters t steps with
  | Ok outs => length outs = length steps /\ forall s il iu, nth_error steps s = Some (il, iu) -> vat_step_ok softmax log_softmax ce log net_l y lambda_u k warmup norm clean gradient moved randn xi eps iters (t + Z.of_nat s) il iu (nth s outs (0, []))
  | Err e => e = InductiveValidationError /\ exists t j iu p d, gradient t j iu p d = None
  end.
Proof using All.
  induction steps as [|[il iu] steps IH]; intros GS t T.
  - cbn. split; [reflexivity|]. intros [|s]; discriminate.
  - destruct (GS il iu (or_introl eq_refl)) as [(NL & _ & NDL & BL) (NU & _ & NDU & BU)]. assert (LL : (0 < length il)%nat) by (destruct il; [easy|cbn; lia]).
    set (yb := map (fun i => nth i y 0%Z) il).
    assert (YB : forall c, In c yb -> (0 <= c < Z.of_nat k)%Z).
    { intros c I. unfold yb in I. apply in_map_iff in I. destruct I as (i & <- & I). apply (proj2 Y), nth_In. rewrite (proj1 Y). now apply BL. }
    cbn [vat_steps]. unfold vat_step. fold yb. rewrite (table_width (length il) k) by auto. replace (existsb _ yb) with false.
    2:{ symmetry. apply Bool.not_true_iff_false. intros E. apply existsb_exists in E. destruct E as (c & I & E). apply YB in I. lia. }
    pose proof (vat_loss_spec t iu NU) as VL. destruct (vat_loss _ _ _ _ _ _ _ _ _ _ _ _ _) as [[[v tried] r]|e]; cbn [bind]; [|destruct VL as (-> & j & p & d & N); split; [reflexivity|]; now exists t, j, iu, p, d].
    destruct VL as [AD VL]. specialize (IH (fun a d I => GS a d (or_intror I)) (t + 1)%Z ltac:(lia)).
    destruct (vat_steps _ _ _ _ _ _ _ _ _ _ _ _ _ _ _ _ _ _) as [outs|e]; cbn [bind]; [|exact IH]. destruct IH as [L H]. split; [cbn; now rewrite L|].
    intros [|s] il' iu' N; cbn [nth_error nth] in *.
    + injection N as <- <-. rewrite Z.add_0_r. eexists _, v, _. cbn [fst snd]. split; [|split; [exact AD|split; [exact VL|split; [|reflexivity]]]]; [|apply warm_ramp; lia].
      pose proof (ce_mean_spec ce (length il) (net_l t il) yb LL (proj1 (TL _ il)) (map_length _ _)) as A. revert A.
      apply row_average_ext. intros q R. unfold yb, label_of. rewrite (nth_map _ _ q 0%nat) by lia. reflexivity.
    + replace (t + Z.of_nat (S s))%Z with (t + 1 + Z.of_nat s)%Z by lia. now apply H.
Qed.
End Vat.

Lemma vat_fit_spec {St} (G : Gen St) softmax log_softmax ce log norm clean gradient moved randn xi eps net_l y lambda_u fraction iters n_l n_u b max_epochs sl su k :
  gen_ok G -> softmax_ok softmax -> (forall z, length (log_softmax z) = length z) -> (0 < k)%nat -> norm_ok norm -> length y = n_l -> (forall c, In c y -> (0 <= c < Z.of_nat k)%Z) ->
  (forall t idx, table (length idx) k (net_l t idx)) -> (forall t idx, table (length idx) k (clean t idx)) -> (forall t idx r, table (length idx) k (moved t idx r)) ->
  match vat_fit softmax log_softmax ce log G norm clean gradient moved randn xi eps net_l y lambda_u fraction iters n_l n_u b max_epochs sl su with
  | Ok outs => 0 < xi /\ 0 < eps /\ (0 < iters)%Z /\ 0 <= lambda_u /\ 0 <= fraction /\ exists epochs warmup,
      fit_batches G n_l n_u b max_epochs sl su = Ok epochs /\ ramp_length fraction (lenZ (concat epochs)) warmup /\ length outs = length (concat epochs) /\
      forall t il iu, nth_error (concat epochs) t = Some (il, iu) ->
        vat_step_ok softmax log_softmax ce log net_l y lambda_u k warmup norm clean gradient moved randn xi eps iters (Z.of_nat t) il iu (nth t outs (0, []))
  | Err e => e = InductiveValidationError /\
      (n_l = 0%nat \/ n_u = 0%nat \/ (b <= 0)%Z \/ (max_epochs <= 0)%Z \/ lambda_u < 0 \/ fraction < 0 \/ xi <= 0 \/ eps <= 0 \/ (iters <= 0)%Z \/ exists t j iu p d, gradient t j iu p d = None)
  end.
Proof.
  intros GO SM LS K NO LY Y TL TC TM. unfold vat_fit. pose proof (fit_batches_spec G n_l n_u b max_epochs sl su GO) as FB.
  destruct (fit_batches G n_l n_u b max_epochs sl su) as [epochs|e] eqn:EF; cbn [bind]; [|destruct FB as [-> N]; split; [reflexivity|lia]]. clear FB.
  destruct (fit_steps G n_l n_u b max_epochs sl su epochs GO EF) as (_ & _ & B & ME & GS & LC & MP & NE).
  destruct (Qle_bool 0 lambda_u) eqn:E1; cbn [negb]; [apply Qle_bool_iff in E1|apply Qle_bool_false in E1; split; [reflexivity|tauto]].
  destruct (Qle_bool xi 0) eqn:E2; [apply Qle_bool_iff in E2; split; [reflexivity|tauto]|apply Qle_bool_false in E2].
  destruct (Qle_bool eps 0) eqn:E3; [apply Qle_bool_iff in E3; split; [reflexivity|tauto]|apply Qle_bool_false in E3].
  destruct (Z.leb_spec iters 0) as [E4|E4]; [split; [reflexivity|tauto]|].
  destruct (Qle_bool 0 fraction) eqn:E5; cbn [negb]; [apply Qle_bool_iff in E5|apply Qle_bool_false in E5; split; [reflexivity|tauto]].
  pose proof (vat_steps_spec softmax log_softmax ce log norm clean gradient moved randn xi eps net_l y lambda_u _ iters n_l n_u k b SM LS K NO E2 E3 E4
    (warmup_nonneg fraction (max_epochs * steps_per_epoch (Z.of_nat n_l) (Z.of_nat n_u) b)) (conj LY Y) TL TC TM (concat epochs) GS 0%Z ltac:(lia)) as VS.
  destruct (vat_steps _ _ _ _ _ _ _ _ _ _ _ _ _ _ _ _ _ _) as [outs|e]; [|destruct VS as [-> VS]; split; [reflexivity|tauto]]. destruct VS as [L H].
  repeat (split; [assumption|]). exists epochs. eexists. split; [reflexivity|]. split; [rewrite LC; apply warmup_spec|]. split; [exact L|]. intros t il iu I. exact (H t il iu I).
Qed.

(* ------------------------------------------------------------------ Deep Co-Training *)
Section Sizes.
Context {St : Type}.
Variable G : Gen St.
Hypothesis GO : gen_ok G.
Variable n : nat.
Variable b : Z.
Lemma iter_sizes s s' bs bs' s1 s1' : iter_batch_indices G n b s = Ok (bs, s1) -> iter_batch_indices G n b s' = Ok (bs', s1') -> map (@length nat) bs = map (@length nat) bs'.
Proof using All.
  unfold iter_batch_indices. pose proof (GO s n) as P. pose proof (GO s' n) as P'. destruct (g_perm G s n) as [idx t], (g_perm G s' n) as [idx' t']. cbn [fst] in P, P'.
  destruct (py_range (Z.of_nat n) b) as [starts|e]; cbn [bind]; [|discriminate]. intros E E'. injection E as <- _. injection E' as <- _. rewrite !map_map. apply map_ext. intros st.
  unfold slice. rewrite !firstn_length, !skipn_length. apply Permutation_length in P, P'. now rewrite P, P'.
Qed.
Lemma cycle_sizes steps : forall pending pending' s s' bs bs' s1 s1', map (@length nat) pending = map (@length nat) pending' ->
  cycle G n b steps pending s = Ok (bs, s1) -> cycle G n b steps pending' s' = Ok (bs', s1') -> map (@length nat) bs = map (@length nat) bs'.
Proof using All.
  induction steps as [|steps IH]; intros pending pending' s s' bs bs' s1 s1' L E E'; cbn [cycle] in E, E'.
  - injection E as <- _. injection E' as <- _. reflexivity.
  - destruct pending as [|p pending], pending' as [|p' pending']; try discriminate L.
    + destruct (iter_batch_indices G n b s) as [[fresh t]|e] eqn:F; cbn [bind] in E; [|discriminate E]. destruct (iter_batch_indices G n b s') as [[fresh' t']|e] eqn:F'; cbn [bind] in E'; [|discriminate E'].
      pose proof (iter_sizes _ _ _ _ _ _ F F') as LF. destruct fresh as [|q fresh], fresh' as [|q' fresh']; try discriminate LF; [discriminate E|].
      cbn [map] in LF. injection LF as L1 L2. destruct (cycle G n b steps fresh t) as [[r u]|e] eqn:C; cbn [bind] in E; [|discriminate E]. destruct (cycle G n b steps fresh' t') as [[r' u']|e] eqn:C'; cbn [bind] in E'; [|discriminate E'].
      injection E as <- <-. injection E' as <- <-. cbn [map]. f_equal; [exact L1|]. now apply (IH fresh fresh' t t' r r' u u').
    + cbn [map] in L. injection L as L1 L2. destruct (cycle G n b steps pending s) as [[r u]|e] eqn:C; cbn [bind] in E; [|discriminate E]. destruct (cycle G n b steps pending' s') as [[r' u']|e] eqn:C'; cbn [bind] in E'; [|discriminate E'].
      injection E as <- <-. injection E' as <- <-. cbn [map]. f_equal; [exact L1|]. now apply (IH pending pending' s s' r r' u u').
Qed.
Lemma epoch_sizes epochs steps : forall s s' es es' s1 s1', epoch_batches G epochs n b steps s = Ok (es, s1) -> epoch_batches G epochs n b steps s' = Ok (es', s1') ->
  map (@length nat) (concat es) = map (@length nat) (concat es').
Proof using All.
  induction epochs as [|epochs IH]; intros s s' es es' s1 s1' E E'; cbn [epoch_batches] in E, E'.
  - injection E as <- _. injection E' as <- _. reflexivity.
  - unfold cycle_batch_indices in E, E'. destruct (cycle G n b (Z.to_nat steps) [] s) as [[bs t]|e] eqn:C; cbn [bind] in E; [|discriminate E]. destruct (cycle G n b (Z.to_nat steps) [] s') as [[bs' t']|e] eqn:C'; cbn [bind] in E'; [|discriminate E'].
    destruct (epoch_batches G epochs n b steps t) as [[r u]|e] eqn:F; cbn [bind] in E; [|discriminate E]. destruct (epoch_batches G epochs n b steps t') as [[r' u']|e] eqn:F'; cbn [bind] in E'; [|discriminate E'].
    injection E as <- <-. injection E' as <- <-. cbn [concat]. rewrite !map_app. f_equal; [exact (cycle_sizes _ [] [] s s' bs bs' t t' eq_refl C C')|now apply (IH t t' r r' u u')].
Qed.
End Sizes.


Lemma dct_batches_spec {St} (G : Gen St) n_l n_u b max_epochs s1 s2 su : gen_ok G -> (0 < n_l)%nat -> (0 < n_u)%nat -> (0 < b)%Z -> (0 < max_epochs)%Z ->
  exists steps, dct_batches G n_l n_u b max_epochs s1 s2 su = Ok steps /\ dct_steps_ok n_l n_u b max_epochs steps.
Proof.
  intros GO NL NU B ME. unfold dct_batches. set (m := steps_per_epoch (Z.of_nat n_l) (Z.of_nat n_u) b).
  pose proof (num_batches_enough (Z.of_nat n_l) b ltac:(lia) B) as JL. pose proof (num_batches_enough (Z.of_nat n_u) b ltac:(lia) B) as JU.
  assert (MP : (0 <= m)%Z) by (unfold m, steps_per_epoch, just_enough in *; nia).
  destruct (epoch_spec G GO n_l b NL B (Z.to_nat max_epochs) m MP s1) as (e1 & t1 & E1 & L1 & F1).
  destruct (epoch_spec G GO n_l b NL B (Z.to_nat max_epochs) m MP s2) as (e2 & t2 & E2 & L2 & F2).
  destruct (epoch_spec G GO n_u b NU B (Z.to_nat max_epochs) m MP su) as (eu & tu & EU & LU & FU).
  rewrite E1. cbn [bind]. rewrite E2. cbn [bind]. rewrite EU. cbn [bind]. eexists. split; [reflexivity|].
  pose proof (epoch_sizes G GO n_l b _ _ _ _ _ _ _ _ E1 E2) as SZ.
  assert (LC : forall n e, length e = Z.to_nat max_epochs -> Forall (fun bs => lenZ bs = m /\ Forall (proper_batch n b) bs /\ even_use n (num_batches (Z.of_nat n) b) m bs) e -> lenZ (concat e) = (max_epochs * m)%Z).
  { intros n e L F. rewrite (concat_len m); [unfold lenZ; rewrite L; lia|]. rewrite Forall_forall in F. intros x I. now apply F. }
  pose proof (LC _ _ L1 F1) as C1. pose proof (LC _ _ L2 F2) as C2. pose proof (LC _ _ LU FU) as CU. unfold lenZ in C1, C2, CU.
  assert (LCC : length (combine (concat e1) (concat e2)) = length (concat eu)) by (rewrite combine_length; lia).
  exists m, e1, e2, eu. split.
  { intros k_l k_u KL KU. unfold m, steps_per_epoch. rewrite (just_enough_unique _ _ _ _ B KL JL), (just_enough_unique _ _ _ _ B KU JU). reflexivity. }
  split; [unfold lenZ; lia|]. split; [unfold lenZ; lia|]. split; [unfold lenZ; lia|].
  assert (EV : forall n e, (0 < n)%nat -> Forall (fun bs => lenZ bs = m /\ Forall (proper_batch n b) bs /\ even_use n (num_batches (Z.of_nat n) b) m bs) e -> Forall (even_epoch n b m) e).
  { intros n e N F. eapply Forall_impl; [|exact F]. intros bs (Q1 & Q2 & Q3). split; [exact Q1|]. split; [exact Q2|]. exists (num_batches (Z.of_nat n) b). split; [apply num_batches_enough; lia|exact Q3]. }
  split; [now apply EV|]. split; [now apply EV|]. split; [now apply EV|].
  split; [rewrite <- (map_map fst fst), combine_fst by exact LCC; apply combine_fst; lia|].
  split; [rewrite <- (map_map fst snd), combine_fst by exact LCC; apply combine_snd; lia|].
  split; [now apply combine_snd|].
  intros i1 i2 iu I. apply in_combine_l in I. clear -I SZ. revert SZ I. generalize (concat e1) (concat e2). induction l as [|a l IH]; intros [|a' l'] SZ I; try easy.
  cbn [map] in SZ. injection SZ as Q1 Q2. destruct I as [I|I]; [now injection I as <- <-|]. now apply (IH l').
Qed.
Lemma dct_steps_proper n_l n_u b max_epochs steps : dct_steps_ok n_l n_u b max_epochs steps ->
  forall i1 i2 iu, In (i1, i2, iu) steps -> length i1 = length i2 /\ proper_batch n_l b i1 /\ proper_batch n_l b i2 /\ proper_batch n_u b iu.
Proof.
  intros (m & e1 & e2 & eu & _ & _ & _ & _ & F1 & F2 & FU & M1 & M2 & MU & SZ) i1 i2 iu I. split; [eapply SZ; exact I|].
  assert (H : forall n e x, Forall (even_epoch n b m) e -> In x (concat e) -> proper_batch n b x).
  { intros n e x F J. apply in_concat in J. destruct J as (bs & J1 & J2). rewrite Forall_forall in F. destruct (F bs J1) as (_ & P & _). rewrite Forall_forall in P. now apply P. }
  split; [apply (H n_l e1); [exact F1|]; rewrite <- M1; now apply (in_map (fun s => fst (fst s))) in I|].
  split; [apply (H n_l e2); [exact F2|]; rewrite <- M2; now apply (in_map (fun s => snd (fst s))) in I|].
  apply (H n_u eu); [exact FU|]; rewrite <- MU; now apply (in_map snd) in I.
Qed.

(* the attack *)
Lemma sign_spec eps g : eps * sign g == if Qlt_le_dec 0 g then eps else if Qlt_le_dec g 0 then - eps else 0.
Proof.
  unfold sign. destruct (Qle_bool g 0) eqn:A.
  - apply Qle_bool_iff in A. destruct (Qlt_le_dec 0 g); [lra|]. destruct (Qle_bool 0 g) eqn:C.
    + apply Qle_bool_iff in C. destruct (Qlt_le_dec g 0); lra.
    + apply Qle_bool_false in C. destruct (Qlt_le_dec g 0); lra.
  - apply Qle_bool_false in A. destruct (Qlt_le_dec 0 g); lra.
Qed.
Lemma Qmax_cases x a : (x < a /\ Qmax x a = a) \/ (a <= x /\ Qmax x a = x).
Proof.
  unfold Qmax, GenericMinMax.gmax. destruct (Qcompare_spec x a); [right|left|right]; split; try reflexivity; lra.
Qed.
Lemma Qmin_cases x b : (b < x /\ Qmin x b = b) \/ (x <= b /\ Qmin x b = x).
Proof.
  unfold Qmin, GenericMinMax.gmin. destruct (Qcompare_spec x b); [right|right|left]; split; try reflexivity; lra.
Qed.
Lemma clamp_spec lo hi x : (forall a b, lo = Some a -> hi = Some b -> a <= b) ->
  (inside lo hi x -> clamp lo hi x == x) /\ (forall l, lo = Some l -> x < l -> clamp lo hi x == l) /\ (forall h, hi = Some h -> h < x -> clamp lo hi x == h).
Proof.
  intros LH. unfold clamp, inside. destruct lo as [a|], hi as [b|].
  - specialize (LH a b eq_refl eq_refl). split; [intros [A B]; specialize (A a eq_refl); specialize (B b eq_refl)|split; intros ? E; injection E as <-; intros L];
      destruct (Qmax_cases x a) as [[A' ->]|[A' ->]]; try lra.
    + destruct (Qmin_cases x b) as [[C ->]|[C ->]]; lra.
    + destruct (Qmin_cases a b) as [[C ->]|[C ->]]; lra.
    + destruct (Qmin_cases x b) as [[C ->]|[C ->]]; lra.
  - split; [intros [A B]; specialize (A a eq_refl)|split; intros ? E; try discriminate E; injection E as <-; intros L]; destruct (Qmax_cases x a) as [[A' ->]|[A' ->]]; lra.
  - split; [intros [A B]; specialize (B b eq_refl)|split; intros ? E; try discriminate E; injection E as <-; intros L]; destruct (Qmin_cases x b) as [[A' ->]|[A' ->]]; lra.
  - split; [reflexivity|]. split; intros ? E; discriminate E.
Qed.
Lemma inside_ext lo hi x x' : x == x' -> inside lo hi x -> inside lo hi x'.
Proof. intros E [A B]. split; intros c H; [specialize (A c H)|specialize (B c H)]; lra. Qed.

Section DctSteps.
Variable softmax log_softmax : list Q -> list Q.
Variable ce : list Q -> Z -> Q.
Variable argmax : list Q -> Z.
Variable log : Q -> Q.
Variable cfg : dct_config.
Variable X_l X_u : list (list Q).
Variable y : list Z.
Variable net_attack net_clean net_adv : nat -> Z -> list (list Q) -> list (list Q).
Variable grad : nat -> Z -> list (list Q) -> list Z -> list (list Q).
Variables k d : nat.
Hypothesis SM : softmax_ok softmax.
Hypothesis LS : forall z, length (log_softmax z) = length z.
Hypothesis K : (0 < k)%nat.
Hypothesis CF : dct_numbers_ok cfg.
Hypothesis XL : forall r, In r X_l -> length r = d.
Hypothesis XU : forall r, In r X_u -> length r = d.
Hypothesis NA : forall v t x, table (length x) k (net_attack v t x).
Hypothesis NC : forall v t x, table (length x) k (net_clean v t x).
Hypothesis ND : forall v t x, table (length x) k (net_adv v t x).
Hypothesis GR : forall v t x tg, table (length x) d x -> table (length x) d (grad v t x tg).

Lemma pick_table (X : list (list Q)) idx : (forall r, In r X -> length r = d) -> (forall i, In i idx -> (i < length X)%nat) -> table (length idx) d (pick X idx).
Proof using All.
  intros H B. split; [apply map_length|]. intros r I. apply in_map_iff in I. destruct I as (i & <- & I). apply H, nth_In, B, I.
Qed.
Lemma rows_of_spec il iu : rows_of X_l X_u il iu (pick X_l il ++ pick X_u iu).
Proof using All.
  unfold rows_of, pick. split; [now rewrite app_length, !map_length|]. split; intros r R.
  - rewrite app_nth1 by (now rewrite map_length). now apply (nth_map (fun i => nth i X_l [])).
  - rewrite app_nth2 by (rewrite map_length; lia). rewrite map_length. replace (length il + r - length il)%nat with r by lia. now apply (nth_map (fun i => nth i X_u [])).
Qed.
Lemma fgsm_spec v t il x : table (length x) d x -> (length il <= length x)%nat ->
  exists a, fgsm argmax (net_attack v t x) (grad v t x) (adv_eps cfg) (clip_min cfg) (clip_max cfg) (map (fun i => nth i y 0%Z) il) x = Ok a /\
    table (length x) d a /\ attack argmax cfg y net_attack grad v t il x a.
Proof using All.
  intros T LE. unfold fgsm. rewrite (proj1 (NA v t x)), Nat.eqb_refl. cbn [negb]. eexists. split; [reflexivity|].
  set (tg := attack_targets argmax (map (fun i => nth i y 0%Z) il) (net_attack v t x)).
  destruct (zip2_spec (fun x0 g => clamp (clip_min cfg) (clip_max cfg) (x0 + adv_eps cfg * sign g)) (length x) d x (grad v t x tg) T (GR v t x tg T)) as [T2 C2].
  split; [exact T2|]. exists tg.
  assert (LT : length tg = length x) by (unfold tg, attack_targets; rewrite app_length, !map_length, skipn_length, (proj1 (NA v t x)); lia).
  split; [exact LT|]. split.
  { intros r R. unfold tg, attack_targets, label_of. rewrite app_nth1 by (now rewrite map_length). now apply (nth_map (fun i => nth i y 0%Z)). }
  split.
  { intros r R. unfold tg, attack_targets. rewrite app_nth2 by (rewrite map_length; lia). rewrite map_length. rewrite (nth_map argmax _ _ []) by (rewrite skipn_length, (proj1 (NA v t x)); lia).
    rewrite nth_skipn. f_equal. f_equal. lia. }
  split; [exact (proj1 T2)|]. intros r R. pose proof (table_nth _ _ _ _ T R) as L1. pose proof (table_nth _ _ _ _ T2 R) as L2. split; [congruence|]. rewrite L1. intros j J.
  pose proof (C2 r j R J) as E. unfold cell in E. cbv zeta. rewrite E. clear E C2.
  pose proof (sign_spec (adv_eps cfg) (nth j (nth r (grad v t x tg) []) 0)) as SG. revert SG. generalize (if Qlt_le_dec 0 (nth j (nth r (grad v t x tg) []) 0) then adv_eps cfg else if Qlt_le_dec (nth j (nth r (grad v t x tg) []) 0) 0 then - adv_eps cfg else 0).
  intros q SG. destruct CF as (_ & _ & _ & LH). destruct (clamp_spec (clip_min cfg) (clip_max cfg) (nth j (nth r x []) 0 + adv_eps cfg * sign (nth j (nth r (grad v t x tg) []) 0)) LH) as (I1 & I2 & I3).
  split; [|split].
  - intros H. rewrite I1; [now rewrite SG|]. eapply inside_ext; [|exact H]. now rewrite SG.
  - intros l E L. apply (I2 l E). rewrite SG. exact L.
  - intros h E L. apply (I3 h E). rewrite SG. exact L.
Qed.
Lemma entropy_spread (p : nat -> Q) : entropy log (map p (seq 0 k)) = spread log k p.
Proof using All. unfold entropy, spread. now rewrite map_map. Qed.
Lemma js_spec n p q : (0 < n)%nat -> table n k p -> table n k q ->
  row_average n (fun r => spread log k (fun c => (1 # 2) * (nth c (nth r p []) 0 + nth c (nth r q []) 0)) - (1 # 2) * spread log k (fun c => nth c (nth r p []) 0) - (1 # 2) * spread log k (fun c => nth c (nth r q []) 0)) (js log p q).
Proof using All.
  intros N P Q. unfold js. rewrite (zipw_seq _ p q [] []) by (rewrite (proj1 P), (proj1 Q); reflexivity). rewrite (proj1 P).
  eapply row_average_ext; [|apply row_average_mean, N]. intros r R. cbv beta. pose proof (table_nth _ _ _ _ P R) as LP. pose proof (table_nth _ _ _ _ Q R) as LQ.
  rewrite (zipw_seq _ (nth r p []) (nth r q []) 0 0) by congruence. rewrite LP, entropy_spread.
  rewrite <- (entropy_spread (fun c => nth c (nth r p []) 0)), <- (entropy_spread (fun c => nth c (nth r q []) 0)).
  rewrite <- (row_entries k _ LP), <- (row_entries k _ LQ). reflexivity.
Qed.

Lemma dct_step_spec t i1 i2 iu : length i1 = length i2 -> (0 < length i1)%nat -> (0 < length iu)%nat ->
  (forall i, In i i1 \/ In i i2 -> (i < length X_l)%nat) -> (forall i, In i iu -> (i < length X_u)%nat) ->
  exists loss, dct_step softmax log_softmax ce argmax log cfg X_l X_u y net_attack net_clean net_adv grad t i1 i2 iu = Ok loss /\
    co_objective softmax log_softmax ce argmax log cfg X_l X_u y net_attack net_clean net_adv grad k t i1 i2 iu loss.
Proof using All.
  intros LI N1 NU B1 BU. unfold dct_step. rewrite LI, Nat.eqb_refl. cbn [negb].
  set (x1 := pick X_l i1 ++ pick X_u iu). set (x2 := pick X_l i2 ++ pick X_u iu).
  assert (L1 : length x1 = (length i1 + length iu)%nat) by (unfold x1, pick; now rewrite app_length, !map_length).
  assert (L2 : length x2 = (length i1 + length iu)%nat) by (unfold x2, pick; rewrite app_length, !map_length; lia).
  assert (T1 : table (length x1) d x1) by (rewrite L1; apply table_app; apply pick_table; auto).
  assert (T2 : table (length x2) d x2) by (rewrite L2, LI; apply table_app; apply pick_table; auto).
  destruct (fgsm_spec 0 t i1 x1 T1 ltac:(lia)) as (a1 & E1 & TA1 & A1). destruct (fgsm_spec 1 t i2 x2 T2 ltac:(lia)) as (a2 & E2 & TA2 & A2).
  rewrite E1. cbn [bind]. rewrite E2. cbn [bind].
  pose proof (NC 0%nat t x1) as C1. pose proof (NC 1%nat t x2) as C2. pose proof (ND 1%nat t a1) as D1. pose proof (ND 0%nat t a2) as D2.
  rewrite (proj1 TA1) in D1. rewrite (proj1 TA2) in D2.
  assert (P1 : (0 < length x1)%nat) by lia. assert (P2 : (0 < length x2)%nat) by lia.
  cbv zeta. rewrite (proj1 C1), (proj1 C2), (table_width _ _ _ P1 C1), (table_width _ _ _ P2 C2), !Nat.eqb_refl. cbn [negb orb].
  rewrite (proj1 D1), (proj1 D2), (proj1 TA1), (proj1 TA2), (table_width _ _ _ P1 D1), (table_width _ _ _ P2 D2), !Nat.eqb_refl. cbn [negb orb].
  eexists. split; [reflexivity|]. rewrite <- LI.
  pose proof C1 as C1'. pose proof C2 as C2'. rewrite L1 in C1'. rewrite L2 in C2'. destruct (table_firstn _ _ _ _ C1') as [F1 S1]. destruct (table_firstn _ _ _ _ C2') as [F2 S2].
  exists x1, x2, a1, a2. eexists _, _, _, _, _.
  split; [apply rows_of_spec|]. split; [apply rows_of_spec|]. split; [exact A1|]. split; [exact A2|].
  split.
  { eapply row_average_ext; [|apply (ce_mean_spec ce (length i1) (firstn (length i1) (net_clean 0 t x1)) (map (fun i => nth i y 0%Z) i1)); [lia|exact (proj1 F1)|apply map_length]].
    intros r R. cbv beta. rewrite nth_firstn_lt by exact R. unfold label_of. now rewrite (nth_map (fun i => nth i y 0%Z) i1 r 0%nat) by exact R. }
  split.
  { rewrite <- LI. eapply row_average_ext; [|apply (ce_mean_spec ce (length i1) (firstn (length i1) (net_clean 1 t x2)) (map (fun i => nth i y 0%Z) i2)); [lia|exact (proj1 F2)|now rewrite map_length]].
    intros r R. cbv beta. rewrite nth_firstn_lt by exact R. unfold label_of. rewrite (nth_map (fun i => nth i y 0%Z) i2 r 0%nat) by lia. reflexivity. }
  split.
  { rewrite <- LI. eapply row_average_ext; [|apply (js_spec (length iu) (map softmax (skipn (length i1) (net_clean 0 t x1))) (map softmax (skipn (length i1) (net_clean 1 t x2)))); [exact NU|apply softmax_table; auto|apply softmax_table; auto]].
    intros r R. cbv beta zeta. rewrite (nth_softmax softmax (length iu) k) by auto. rewrite (nth_softmax softmax (length iu) k (skipn (length i1) (net_clean 1 t x2))) by auto. rewrite !nth_skipn. reflexivity. }
  split.
  { eapply row_average_ext; [|apply (soft_rows_spec log_softmax (length x1) k (map softmax (net_clean 0 t x1)) (net_adv 1 t a1) LS P1); [apply softmax_table; auto|exact D1]].
    intros r R. cbv beta. rewrite (nth_softmax softmax (length x1) k) by auto. reflexivity. }
  split.
  { eapply row_average_ext; [|apply (soft_rows_spec log_softmax (length x2) k (map softmax (net_clean 1 t x2)) (net_adv 0 t a2) LS P2); [apply softmax_table; auto|exact D2]].
    intros r R. cbv beta. rewrite (nth_softmax softmax (length x2) k) by auto. reflexivity. }
  destruct (Qeq_bool (lambda_cot cfg) 0) eqn:QC, (Qeq_bool (lambda_dif cfg) 0) eqn:QD; try apply Qeq_bool_iff in QC; try apply Qeq_bool_iff in QD; try rewrite QC; try rewrite QD; ring.
Qed.
Lemma dct_steps_spec steps : forall t,
  (forall i1 i2 iu, In (i1, i2, iu) steps -> length i1 = length i2 /\ (0 < length i1)%nat /\ (0 < length iu)%nat /\ (forall i, In i i1 \/ In i i2 -> (i < length X_l)%nat) /\ (forall i, In i iu -> (i < length X_u)%nat)) ->
  exists losses, dct_steps softmax log_softmax ce argmax log cfg X_l X_u y net_attack net_clean net_adv grad t steps = Ok losses /\ length losses = length steps /\
    forall s i1 i2 iu, nth_error steps s = Some (i1, i2, iu) -> co_objective softmax log_softmax ce argmax log cfg X_l X_u y net_attack net_clean net_adv grad k (t + Z.of_nat s) i1 i2 iu (nth s losses 0).
Proof using All.
  induction steps as [|[[j1 j2] ju] steps IH]; intros t H; cbn [dct_steps].
  - exists []. split; [reflexivity|]. split; [reflexivity|]. intros [|s] ? ? ? E; discriminate E.
  - destruct (H j1 j2 ju (or_introl eq_refl)) as (A1 & A2 & A3 & A4 & A5). destruct (dct_step_spec t j1 j2 ju A1 A2 A3 A4 A5) as (loss & E & O). rewrite E. cbn [bind].
    destruct (IH (t + 1)%Z) as (more & E2 & L2 & O2); [intros ? ? ? I; apply H; now right|]. rewrite E2. cbn [bind]. exists (loss :: more). split; [reflexivity|]. split; [cbn; lia|].
    intros [|s] i1 i2 iu N; cbn [nth_error] in N; cbn [nth].
    + injection N as <- <- <-. now rewrite Z.add_0_r.
    + replace (t + Z.of_nat (S s))%Z with (t + 1 + Z.of_nat s)%Z by lia. now apply O2.
Qed.
End DctSteps.

Lemma check_dct_spec cfg : match check_dct cfg with Ok _ => dct_numbers_ok cfg | Err e => e = InductiveValidationError /\ ~ dct_numbers_ok cfg end.
Proof.
  unfold check_dct, dct_numbers_ok.
  destruct (Qle_bool 0 (lambda_cot cfg)) eqn:A; cbn [negb]; [apply Qle_bool_iff in A|apply Qle_bool_false in A; split; [reflexivity|intros (H & _); lra]].
  destruct (Qle_bool 0 (lambda_dif cfg)) eqn:B; cbn [negb]; [apply Qle_bool_iff in B|apply Qle_bool_false in B; split; [reflexivity|intros (_ & H & _); lra]].
  destruct (Qle_bool 0 (adv_eps cfg)) eqn:C; cbn [negb]; [apply Qle_bool_iff in C|apply Qle_bool_false in C; split; [reflexivity|intros (_ & _ & H & _); lra]].
  destruct (clip_min cfg) as [a|], (clip_max cfg) as [b|]; try (repeat (split; [assumption|]); intros ? ? E E'; discriminate).
  destruct (Qle_bool a b) eqn:D; cbn [negb]; [apply Qle_bool_iff in D|apply Qle_bool_false in D].
  - repeat (split; [assumption|]). intros ? ? E E'. injection E as <-. now injection E' as <-.
  - split; [reflexivity|]. intros (_ & _ & _ & H). specialize (H a b eq_refl eq_refl). lra.
Qed.

Lemma dct_fit_spec {St} (G : Gen St) softmax log_softmax ce argmax log cfg X_l X_u y net_attack net_clean net_adv grad same ids1 ids2 b max_epochs s1 s2 su k d :
  gen_ok G -> softmax_ok softmax -> (forall z, length (log_softmax z) = length z) -> (0 < k)%nat ->
  (forall r, In r X_l -> length r = d) -> (forall r, In r X_u -> length r = d) ->
  (forall v t x, table (length x) k (net_attack v t x)) -> (forall v t x, table (length x) k (net_clean v t x)) -> (forall v t x, table (length x) k (net_adv v t x)) ->
  (forall v t x tg, table (length x) d x -> table (length x) d (grad v t x tg)) ->
  match dct_fit softmax log_softmax ce argmax log G cfg X_l X_u y net_attack net_clean net_adv grad same ids1 ids2 b max_epochs s1 s2 su with
  | Ok losses => separate same ids1 ids2 /\ dct_numbers_ok cfg /\ exists steps, dct_steps_ok (length X_l) (length X_u) b max_epochs steps /\ length losses = length steps /\
      forall t i1 i2 iu, nth_error steps t = Some (i1, i2, iu) ->
        co_objective softmax log_softmax ce argmax log cfg X_l X_u y net_attack net_clean net_adv grad k (Z.of_nat t) i1 i2 iu (nth t losses 0)
  | Err e => e = InductiveValidationError /\ (X_l = [] \/ X_u = [] \/ ~ separate same ids1 ids2 \/ (b <= 0)%Z \/ (max_epochs <= 0)%Z \/ ~ dct_numbers_ok cfg)
  end.
Proof.
  intros GO SM LS K XL XU NA NC ND GR. unfold dct_fit.
  destruct (Nat.eqb_spec (length X_l) 0) as [NL|NL]; cbn [orb]; [split; [reflexivity|left; now apply length_zero_iff_nil]|].
  destruct (Nat.eqb_spec (length X_u) 0) as [NU|NU]; [split; [reflexivity|right; left; now apply length_zero_iff_nil]|].
  pose proof (check_models_spec same ids1 ids2) as CM. destruct (check_models same ids1 ids2) as [[]|e]; cbn [bind]; [|destruct CM as [-> CM]; split; [reflexivity|tauto]].
  destruct (Z.leb_spec b 0); [split; [reflexivity|tauto]|]. destruct (Z.leb_spec max_epochs 0); [split; [reflexivity|tauto]|].
  pose proof (check_dct_spec cfg) as CD. destruct (check_dct cfg) as [[]|e]; cbn [bind]; [|destruct CD as [-> CD]; split; [reflexivity|tauto]].
  destruct (dct_batches_spec G (length X_l) (length X_u) b max_epochs s1 s2 su GO ltac:(lia) ltac:(lia) H H0) as (steps & E & OK). rewrite E. cbn [bind].
  destruct (dct_steps_spec softmax log_softmax ce argmax log cfg X_l X_u y net_attack net_clean net_adv grad k d SM LS K CD XL XU NA NC ND GR steps 0%Z) as (losses & E2 & L & O).
  { intros i1 i2 iu I. destruct (dct_steps_proper _ _ _ _ _ OK i1 i2 iu I) as (A & (P1 & _ & _ & R1) & (P2 & _ & _ & R2) & (PU & _ & _ & RU)). split; [exact A|].
    split; [destruct i1; [easy|cbn; lia]|]. split; [destruct iu; [easy|cbn; lia]|]. split; [intros i [J|J]; auto|exact RU]. }
  rewrite E2. split; [exact CM|]. split; [exact CD|]. exists steps. split; [exact OK|]. split; [exact L|]. intros t i1 i2 iu N. exact (O t i1 i2 iu N).
Qed.

(* labels out of range *)
Lemma bad_label_check il i (y : list Z) k (ll : list (list Q)) : In i il -> ~ (0 <= nth i y 0 < Z.of_nat k)%Z -> table (length il) k ll ->
  existsb (fun c => (c <? 0)%Z || (Z.of_nat (width ll) <=? c)%Z) (map (fun i => nth i y 0%Z) il) = true.
Proof.
  intros I BAD T. apply existsb_exists. exists (nth i y 0%Z). split; [now apply (in_map (fun i => nth i y 0%Z))|].
  rewrite (table_width (length il) k _) by (assumption || (destruct il; [easy|cbn; lia])). lia.
Qed.
Lemma bad_label_step il i (y : list Z) k (ll lw ls : list (list Q)) : In i il -> ~ (0 <= nth i y 0 < Z.of_nat k)%Z -> table (length il) k ll ->
  check_step ll (map (fun i => nth i y 0%Z) il) lw ls = Err InductiveValidationError.
Proof.
  intros I BAD T. unfold check_step. destruct (negb _); [reflexivity|]. destruct (negb _); [reflexivity|]. now rewrite (bad_label_check il i y k).
Qed.
Lemma mpl_bad_label {St} (G : Gen St) softmax log_softmax sharp ce cfg t_l t_w t_s s_s s_l same ids_t ids_s y n_l n_u n_s n_ls b max_epochs sl su k i losses :
  gen_ok G -> (i < n_l)%nat -> ~ (0 <= nth i y 0 < Z.of_nat k)%Z -> (forall t idx, table (length idx) k (t_l t idx)) ->
  mpl_fit softmax log_softmax ce sharp G cfg t_l t_w t_s s_s s_l same ids_t ids_s y n_l n_u n_s n_ls b max_epochs sl su <> Ok losses.
Proof.
  intros GO I BAD TL. unfold mpl_fit. destruct (_ || _); [discriminate|]. destruct (negb _); [discriminate|]. destruct (negb _); [discriminate|].
  destruct (check_models _ _ _); cbn [bind]; [|discriminate]. destruct (fit_batches G n_l n_u b max_epochs sl su) as [epochs|e] eqn:E; cbn [bind]; [|discriminate].
  destruct (check_mpl cfg); cbn [bind]; [|discriminate].
  destruct (row_is_used G n_l n_u b max_epochs sl su epochs i GO E I) as (il & iu & J1 & J2). clear E. revert losses J1. generalize (concat epochs) 0%Z 0.
  induction l as [|[jl ju] rest IH]; intros t q losses J; [easy|]. cbn [mpl_steps]. destruct J as [J|J].
  - injection J as -> ->. unfold mpl_step. now rewrite (bad_label_step il i y k).
  - match goal with |- context [bind ?r _] => destruct r as [[l1 m1]|e] end; cbn [bind]; [|discriminate].
    specialize (IH (t + 1)%Z m1). match goal with |- context [bind ?r _] => destruct r eqn:ST end; cbn [bind]; [|discriminate]. exfalso. now eapply IH.
Qed.
Lemma pi_bad_label {St} (G : Gen St) softmax ce net_l net_w net_s y lambda_u fraction n_l n_u n_s b max_epochs sl su k i losses :
  gen_ok G -> (i < n_l)%nat -> ~ (0 <= nth i y 0 < Z.of_nat k)%Z -> (forall t idx, table (length idx) k (net_l t idx)) ->
  pi_fit softmax ce G net_l net_w net_s y lambda_u fraction n_l n_u n_s b max_epochs sl su <> Ok losses.
Proof.
  intros GO I BAD TL. unfold pi_fit. destruct (Nat.eqb _ _); [discriminate|]. destruct (fit_batches G n_l n_u b max_epochs sl su) as [epochs|e] eqn:E; cbn [bind]; [|discriminate].
  destruct (check_numbers _ _); cbn [bind]; [|discriminate].
  destruct (row_is_used G n_l n_u b max_epochs sl su epochs i GO E I) as (il & iu & J1 & J2). clear E. revert losses J1. generalize (warmup_steps fraction (max_epochs * steps_per_epoch (Z.of_nat n_l) (Z.of_nat n_u) b)). intros w. generalize (concat epochs) 0%Z.
  induction l as [|[jl ju] rest IH]; intros t losses J; [easy|]. cbn [pi_steps]. destruct J as [J|J].
  - injection J as -> ->. unfold pi_step. destruct (existsb _ _); [discriminate|]. now rewrite (bad_label_step il i y k).
  - match goal with |- context [bind ?r _] => destruct r as [l1|e] end; cbn [bind]; [|discriminate].
    specialize (IH (t + 1)%Z). match goal with |- context [bind ?r _] => destruct r eqn:ST end; cbn [bind]; [|discriminate]. exfalso. now eapply IH.
Qed.
Lemma vat_bad_label {St} (G : Gen St) softmax log_softmax ce log norm clean gradient moved randn xi eps net_l y lambda_u fraction iters n_l n_u b max_epochs sl su k i outs :
  gen_ok G -> (i < n_l)%nat -> ~ (0 <= nth i y 0 < Z.of_nat k)%Z -> (forall t idx, table (length idx) k (net_l t idx)) ->
  vat_fit softmax log_softmax ce log G norm clean gradient moved randn xi eps net_l y lambda_u fraction iters n_l n_u b max_epochs sl su <> Ok outs.
Proof.
  intros GO I BAD TL. unfold vat_fit. destruct (fit_batches G n_l n_u b max_epochs sl su) as [epochs|e] eqn:E; cbn [bind]; [|discriminate].
  destruct (negb _); [discriminate|]. destruct (Qle_bool xi 0); [discriminate|]. destruct (Qle_bool eps 0); [discriminate|]. destruct (iters <=? 0)%Z; [discriminate|]. destruct (negb _); [discriminate|].
  destruct (row_is_used G n_l n_u b max_epochs sl su epochs i GO E I) as (il & iu & J1 & J2). clear E. cbv zeta. revert outs J1. generalize (warmup_steps fraction (max_epochs * steps_per_epoch (Z.of_nat n_l) (Z.of_nat n_u) b)). intros w. generalize (concat epochs) 0%Z.
  induction l as [|[jl ju] rest IH]; intros t outs J; [easy|]. cbn [vat_steps]. destruct J as [J|J].
  - injection J as -> ->. unfold vat_step. now rewrite (bad_label_check il i y k).
  - match goal with |- context [bind ?r _] => destruct r as [l1|e] end; cbn [bind]; [|discriminate].
    specialize (IH (t + 1)%Z). match goal with |- context [bind ?r _] => destruct r eqn:ST end; cbn [bind]; [|discriminate]. exfalso. now eapply IH.
Qed.
