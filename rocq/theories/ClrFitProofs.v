From Coq Require Import QArith Qminmax Permutation Lqa Lia ZifyBool ZifyNat.
From Verif Require Import Prelude QFacts DeepBatchModel DeepBatchSpec DeepBatchProofs DeepLossModel DeepLossSpec DeepLossProofs CoMatchModel CoMatchSpec CoMatchProofs DasoModel DasoSpec DasoProofs ClrModel ClrSpec ClrProofs.
Local Open Scope Z_scope.
Local Open Scope Q_scope.
Local Open Scope list_scope.

Lemma qle_false a b : Qle_bool a b = false <-> b < a.
Proof. split; intros H; [apply Qnot_le_lt; intros X; apply Qle_bool_iff in X; congruence|]. apply Bool.not_true_iff_false. intros X. apply Qle_bool_iff in X. lra. Qed.
Lemma check_spec cfg n_l n_w n_s :
  match clr_check cfg n_l n_w n_s with Ok _ => clr_numbers_ok cfg /\ clr_data_ok cfg n_l n_w n_s | Err e => e = InductiveValidationError /\ ~ (clr_numbers_ok cfg /\ clr_data_ok cfg n_l n_w n_s) end.
Proof.
  unfold clr_check, clr_numbers_ok, clr_data_ok.
  destruct (cl_b cfg <=? 0)%Z eqn:E1; [split; [reflexivity|]; intros ((X & _) & _); lia|].
  destruct ((cl_pe cfg <? 0)%Z || (cl_fe cfg <? 0)%Z || (cl_de cfg <? 0)%Z) eqn:E2; [split; [reflexivity|]; intros ((_ & X1 & X2 & X3 & _) & _); lia|].
  destruct ((cl_pe cfg =? 0)%Z && (cl_fe cfg =? 0)%Z && (cl_de cfg =? 0)%Z) eqn:E3; [split; [reflexivity|]; intros ((_ & _ & _ & _ & X & _) & _); lia|].
  destruct (in_unit (cl_alpha cfg)) eqn:E4; cbn [negb];
    [|split; [reflexivity|]; intros ((_ & _ & _ & _ & _ & (X1 & X2) & _) & _); unfold in_unit in E4; apply Qle_bool_iff in X1, X2; rewrite X1, X2 in E4; discriminate].
  unfold in_unit in E4. apply andb_true_iff in E4. destruct E4 as (A1 & A2). apply Qle_bool_iff in A1, A2.
  destruct (Qle_bool (cl_temp cfg) 0) eqn:E5; [apply Qle_bool_iff in E5; split; [reflexivity|]; intros ((_ & _ & _ & _ & _ & _ & X & _) & _); lra|].
  destruct (Qle_bool (cl_dtemp cfg) 0) eqn:E6; [apply Qle_bool_iff in E6; split; [reflexivity|]; intros ((_ & _ & _ & _ & _ & _ & _ & X) & _); lra|].
  apply qle_false in E5, E6.
  assert (NUM : (0 < cl_b cfg)%Z /\ (0 <= cl_pe cfg)%Z /\ (0 <= cl_fe cfg)%Z /\ (0 <= cl_de cfg)%Z /\ (0 < cl_pe cfg + cl_fe cfg + cl_de cfg)%Z /\ 0 <= cl_alpha cfg <= 1 /\ 0 < cl_temp cfg /\ 0 < cl_dtemp cfg).
  { repeat split; try assumption; try lia. }
  assert (UN : forall P : Prop, ((0 < cl_pe cfg)%Z \/ (0 < cl_de cfg)%Z -> exists n, n_w = Some n /\ (0 < n)%nat /\ (n_s = None \/ n_s = Some n)) ->
               (match (if (0 <? cl_pe cfg)%Z || (0 <? cl_de cfg)%Z then match n_w with None => Err InductiveValidationError | Some w => if Nat.eqb w 0 then Err InductiveValidationError
                   else if negb (Nat.eqb w (match n_s with Some s => s | None => w end)) then Err InductiveValidationError else Ok tt end else Ok tt) with Ok _ => True | Err _ => False end)).
  { intros _ X. destruct ((0 <? cl_pe cfg)%Z || (0 <? cl_de cfg)%Z) eqn:E; [|exact Logic.I]. destruct X as (n & -> & N & S0); [lia|].
    rewrite (proj2 (Nat.eqb_neq n 0)) by lia. destruct S0 as [-> | ->]; now rewrite Nat.eqb_refl. }
  assert (UN' : forall v : unit, (if (0 <? cl_pe cfg)%Z || (0 <? cl_de cfg)%Z then match n_w with None => Err InductiveValidationError | Some w => if Nat.eqb w 0 then Err InductiveValidationError
                   else if negb (Nat.eqb w (match n_s with Some s => s | None => w end)) then Err InductiveValidationError else Ok tt end else Ok tt) = Ok v ->
               ((0 < cl_pe cfg)%Z \/ (0 < cl_de cfg)%Z -> exists n, n_w = Some n /\ (0 < n)%nat /\ (n_s = None \/ n_s = Some n))).
  { intros v X Y. destruct ((0 <? cl_pe cfg)%Z || (0 <? cl_de cfg)%Z) eqn:E; [|lia]. destruct n_w as [w|]; [|discriminate].
    destruct (Nat.eqb_spec w 0); [discriminate|]. exists w. split; [reflexivity|]. split; [lia|].
    destruct n_s as [s|]; [|now left]. right. destruct (Nat.eqb_spec w s); [now subst|discriminate]. }
  destruct (if (0 <? cl_pe cfg)%Z || (0 <? cl_de cfg)%Z then _ else _) as [u|e] eqn:EU; cbn [bind].
  - specialize (UN' u eq_refl). destruct (((0 <? cl_fe cfg)%Z || cl_labelled cfg) && Nat.eqb n_l 0) eqn:EL.
    + split; [reflexivity|]. intros (_ & _ & X). apply andb_true_iff in EL. destruct EL as (EL1 & EL2). apply Nat.eqb_eq in EL2. apply orb_true_iff in EL1.
      assert (0 < n_l)%nat by (apply X; destruct EL1 as [Z1 | Z1]; [left; lia|now right]). lia.
    + split; [exact NUM|]. split; [exact UN'|]. intros X.
      assert (EL1 : (0 <? cl_fe cfg)%Z || cl_labelled cfg = true) by (apply orb_true_iff; destruct X as [X|X]; [left; lia|now right]).
      rewrite EL1 in EL. cbn in EL. apply Nat.eqb_neq in EL. lia.
  - assert (e = InductiveValidationError).
    { revert EU. clear. destruct ((0 <? cl_pe cfg)%Z || (0 <? cl_de cfg)%Z); [|discriminate]. destruct n_w as [w|]; [|congruence].
      destruct (Nat.eqb w 0); [congruence|]. destruct (negb _); [congruence|discriminate]. }
    split; [assumption|]. intros (_ & X & _). exact (UN False X).
Qed.
Lemma bundles_spec cfg : (0 <= cl_fe cfg)%Z -> (0 <= cl_de cfg)%Z ->
  match clr_bundles cfg with Ok pf => pf = (pretrained cfg, tuned cfg) /\ clr_bundles_ok cfg | Err e => e = InductiveValidationError /\ ~ clr_bundles_ok cfg end.
Proof.
  intros F D. unfold clr_bundles, clr_bundles_ok.
  assert (T : tuned cfg = if (0 <? cl_fe cfg)%Z || (0 <? cl_de cfg)%Z then first_of (cl_fine cfg) (pretrained cfg) else None).
  { unfold tuned. destruct (0 <? cl_fe cfg + cl_de cfg)%Z eqn:E1, ((0 <? cl_fe cfg)%Z || (0 <? cl_de cfg)%Z) eqn:E2; try reflexivity; lia. }
  rewrite T. unfold pretrained. change @or_else with (fun (A : Type) (a c : option A) => match a with Some _ => a | None => c end). cbv beta.
  destruct (0 <? cl_pe cfg)%Z eqn:P; cbn [bind].
  - destruct (cl_pre cfg) as [p|], (cl_fine cfg) as [f|]; cbn [first_of bind];
      destruct ((0 <? cl_fe cfg)%Z || (0 <? cl_de cfg)%Z) eqn:E; cbn [bind]; try (split; [reflexivity|split; intros; (discriminate || lia)]).
    + split; [reflexivity|]. intros (X & _). apply X; [lia|reflexivity].
    + split; [reflexivity|]. intros (X & _). apply X; [lia|reflexivity].
  - destruct ((0 <? cl_fe cfg)%Z || (0 <? cl_de cfg)%Z) eqn:E; [|split; [reflexivity|split; intros; lia]].
    destruct (cl_fine cfg) as [f|]; cbn [first_of bind].
    + split; [reflexivity|split; intros; (discriminate || lia)].
    + split; [reflexivity|]. intros (_ & X). apply X; [lia|reflexivity].
Qed.

Lemma final_last cfg : clr_numbers_ok cfg -> (0 < cl_fe cfg)%Z \/ cl_de cfg = 0%Z \/ cl_student cfg <> None \/ pretrained cfg = tuned cfg ->
  final_bundle cfg (pretrained cfg) (tuned cfg) = last_trained cfg.
Proof.
  intros (_ & PE & FE & DE & _) H. unfold final_bundle, last_trained.
  destruct (0 <? cl_de cfg)%Z eqn:D, (0 <? cl_fe cfg)%Z eqn:F, (cl_student cfg); cbn [first_of]; try reflexivity.
  destruct H as [H|[H|[H|H]]]; try lia; [contradiction|exact H].
Qed.
Lemma last_some cfg : clr_numbers_ok cfg -> clr_bundles_ok cfg -> exists b, last_trained cfg = Some b.
Proof.
  intros (_ & PE & FE & DE & T & _) (B1 & B2). unfold last_trained.
  destruct (0 <? cl_de cfg)%Z eqn:D; [destruct (cl_student cfg); cbn [first_of]; [eauto|]|].
  - destruct (tuned cfg) eqn:E; [eauto|]. exfalso. apply B2; [right; lia|reflexivity].
  - destruct (0 <? cl_fe cfg)%Z eqn:F.
    + destruct (tuned cfg) eqn:E; [eauto|]. exfalso. apply B2; [left; lia|reflexivity].
    + destruct (pretrained cfg) eqn:E; [eauto|]. exfalso. apply B1; [lia|reflexivity].
Qed.

Section Fit.
Context {M St : Type}.
Variable G : Gen St.
Variable manual_seed : Z -> St.
Variable proj : nat -> M -> view -> list nat -> list (list Q).
Variable logits : nat -> bool -> M -> view -> list nat -> list (list Q).
Variable optim : nat -> M -> objective -> M.
Variable load : M -> M -> option M.
Variable shares : nat -> nat -> bool.
Variable binds : nat -> bool.
Variable softmax : list Q -> list Q.
Variable lse : list Q -> Q.
Variable norm : list Q -> Q.
Variable y : list Z.
Variable cfg : clr_config.
Variables (n_l d k : nat).
Hypothesis OKG : gen_ok G.
Hypothesis OKP : forall b w v idx, table (length idx) d (proj b w v idx).
Hypothesis OKL : forall b tr w v idx, table (length idx) k (logits b tr w v idx).
Hypothesis OKY : forall i, (i < n_l)%nat -> (0 <= nth i y 0 < Z.of_nat k)%Z.
Notation fit := (clr_fit G manual_seed proj logits optim load shares binds softmax lse norm y cfg n_l).

Definition rows_u (n_w : option nat) : nat := match n_w with Some w => w | None => O end.

Lemma moved_frozen {A} b (f : M -> A -> M) l h h' : moved b f l h h' -> forall m, c_frozen (h' m) = c_frozen (h m).
Proof.
  intros (Z0 & W & U) m. destruct (Nat.eq_dec m (b_model b)) as [->|N]; [now rewrite W, Z0|now rewrite (U m N)].
Qed.
Lemma pretrains_frozen n_u h h' : pretrains optim cfg n_u h h' -> forall m, c_frozen (h' m) = c_frozen (h m).
Proof. unfold pretrains. destruct (pretrained cfg); [intros (? & ? & _ & _ & X); eapply moved_frozen; exact X|intros X m; now rewrite (X m)]. Qed.
Lemma tunes_frozen h h' : tunes optim cfg n_l h h' -> forall m, c_frozen (h' m) = c_frozen (h m).
Proof. unfold tunes. destruct (if (0 <? cl_fe cfg)%Z then tuned cfg else None); [intros (? & ? & _ & _ & X); eapply moved_frozen; exact X|intros X m; now rewrite (X m)]. Qed.

Lemma fit_spec n_w n_s seed h :
  match fit n_w n_s seed h with
  | (h', Ok final) =>
      clr_numbers_ok cfg /\ clr_data_ok cfg n_l n_w n_s /\ clr_bundles_ok cfg /\ clr_student_ok shares cfg /\ final = final_bundle cfg (pretrained cfg) (tuned cfg) /\
      exists h1 h2 h3, pretrains optim cfg (rows_u n_w) h h1 /\ transfers load cfg h1 h2 /\ tunes optim cfg n_l h2 h3 /\ distils logits optim binds softmax cfg n_l (rows_u n_w) h3 h'
  | (h', Err e) =>
      (e = InductiveValidationError /\ h' = h /\ ~ (clr_numbers_ok cfg /\ clr_data_ok cfg n_l n_w n_s /\ clr_bundles_ok cfg)) \/
      (e = InductiveValidationError /\ exists w w', load w w' = None) \/
      (e = InductiveValidationError /\ ~ clr_student_ok shares cfg) \/
      (e = RuntimeError /\ exists m, c_frozen (h m) = true)
  end.
Proof.
  unfold clr_fit. pose proof (check_spec cfg n_l n_w n_s) as C. destruct (clr_check cfg n_l n_w n_s) as [u|e].
  2:{ left. destruct C as (-> & C). split; [reflexivity|]. split; [reflexivity|]. tauto. }
  destruct C as (NUM & DAT). pose proof (bundles_spec cfg (proj1 (proj2 (proj2 NUM))) (proj1 (proj2 (proj2 (proj2 NUM))))) as B.
  destruct (clr_bundles cfg) as [[pre fine]|e].
  2:{ left. destruct B as (-> & B). split; [reflexivity|]. split; [reflexivity|]. tauto. }
  destruct B as (E & BUN). injection E as -> ->. change (match n_w with Some w => w | None => O end) with (rows_u n_w).
  assert (NU : (0 < cl_pe cfg)%Z \/ (0 < cl_de cfg)%Z -> (0 < rows_u n_w)%nat).
  { intros X. destruct (proj1 DAT X) as (n & -> & N & _). exact N. }
  unfold and_then.
  pose proof (pretrain_spec G manual_seed proj logits optim shares binds lse norm y cfg n_l d k OKG OKP OKL OKY (rows_u n_w) seed h NUM (fun X => NU (or_introl X))) as S1.
  destruct (pretrain_stage G manual_seed proj optim lse norm cfg (rows_u n_w) seed (pretrained cfg) h) as [h1 [v1|e1]]; cbn [fst snd]; [|right; right; right; exact S1].
  pose proof (transfer_spec load cfg h1) as S2. destruct (transfer_stage load cfg (pretrained cfg) (tuned cfg) h1) as [h2 [v2|e2]]; cbn [fst snd]; [|right; left; exact S2].
  destruct S2 as (S2 & F2).
  pose proof (fine_spec G manual_seed proj logits optim load shares binds y cfg n_l d k OKG OKP OKL OKY seed h2 NUM (fun X => proj2 DAT (or_introl X)) (fun X => proj2 BUN (or_introl X))) as S3.
  destruct (fine_stage G manual_seed logits optim y cfg n_l seed (tuned cfg) h2) as [h3 [v3|e3]]; cbn [fst snd].
  2:{ right; right; right. destruct S3 as (-> & m & X). split; [reflexivity|]. exists m. rewrite <- (pretrains_frozen _ _ _ S1 m), <- (F2 m). exact X. }
  pose proof (distil_spec G manual_seed proj logits optim load shares binds softmax y cfg n_l d k OKG OKP OKL OKY (rows_u n_w) seed h3 NUM (fun X => NU (or_intror X)) (fun X => proj2 DAT (or_intror X))) as S4.
  destruct (distil_stage G manual_seed logits optim shares binds softmax y cfg n_l (rows_u n_w) seed (tuned cfg) h3) as [h4 [v4|e4]]; cbn [fst snd].
  - destruct S4 as (S4 & SOK). split; [exact NUM|]. split; [exact DAT|]. split; [exact BUN|]. split; [exact SOK|]. split; [reflexivity|]. exists h1, h2, h3. auto.
  - right; right. destruct S4 as [(-> & m & X)|S4]; [right; split; [reflexivity|]|now left].
    exists m. now rewrite <- (pretrains_frozen _ _ _ S1 m), <- (F2 m), <- (tunes_frozen _ _ S3 m).
Qed.

(* a student was distilled: its teacher is frozen, and cannot be fine-tuned again *)
Lemma teacher_frozen n_w n_s seed h h' final f : fit n_w n_s seed h = (h', Ok final) -> (0 < cl_de cfg)%Z -> cl_student cfg <> None -> tuned cfg = Some f ->
  c_frozen (h' (b_model f)) = true.
Proof.
  intros E D S0 T. pose proof (fit_spec n_w n_s seed h) as F. rewrite E in F. destruct F as (_ & _ & _ & SOK & _ & h1 & h2 & h3 & _ & _ & _ & F4).
  unfold distils in F4. rewrite (proj2 (Z.ltb_lt 0 _) D), T in F4. destruct F4 as (steps & _ & F4). cbv zeta in F4.
  destruct (cl_student cfg) as [s|] eqn:Es; [|contradiction]. destruct F4 as (_ & _ & U).
  destruct (SOK s f D Es T) as (NE & _). rewrite (U (b_model f)) by congruence. now rewrite store_same.
Qed.
Lemma frozen_fails n_w n_s seed h f : c_frozen (h (b_model f)) = true -> tuned cfg = Some f -> (0 < cl_fe cfg)%Z -> forall final, snd (fit n_w n_s seed h) <> Ok final.
Proof.
  intros Z0 T F final X. pose proof (fit_spec n_w n_s seed h) as H. destruct (fit n_w n_s seed h) as [h' r]. cbn in X. subst r.
  destruct H as (_ & _ & _ & _ & _ & h1 & h2 & h3 & F1 & F2 & F3 & _).
  assert (A1 : c_frozen (h2 (b_model f)) = true).
  { rewrite <- Z0, <- (pretrains_frozen _ _ _ F1). unfold transfers in F2. rewrite T in F2. destruct (pretrained cfg) as [p|]; [|now rewrite (F2 (b_model f))].
    destruct (cl_transfer cfg && negb (b_id p =? b_id f)%nat); [|now rewrite (F2 (b_model f))]. destruct F2 as ((w & _ & _ & X) & _). exact X. }
  unfold tunes in F3. rewrite (proj2 (Z.ltb_lt 0 _) F), T in F3. destruct F3 as (? & ? & _ & _ & X & _). congruence.
Qed.
End Fit.
