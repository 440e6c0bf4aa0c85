From Coq Require Import QArith Qminmax Lqa Lia ZifyBool ZifyNat.
From Verif Require Import Prelude QFacts ListFacts SampleServiceProofs DeepBatchModel DeepBatchSpec DeepBatchProofs DeepLossModel DeepLossSpec DeepLossProofs DeepThreshModel DeepThreshSpec DeepThreshProofs DeepEmaModel DeepEmaSpec DeepEmaProofs CoMatchModel CoMatchSpec CoMatchProofs DasoModel DasoSpec DasoProofs.
Local Open Scope Z_scope.
Local Open Scope Q_scope.
Local Open Scope list_scope.

Section Fit.
Variable softmax log_softmax : list Q -> list Q.
Variable ce : list Q -> Z -> Q.
Variable argmax : list Q -> Z.
Variable pow log : Q -> Q.
Variable norm : list Q -> Q.
Variable cfg : daso_config.
Variables k d n_l n_u : nat.
Variable b : Z.
Variable net : Z -> list nat -> list nat -> daso_out.
Variable feats : Z -> list tensor -> list nat -> list (list Q).
Variable student closure : Z -> list tensor.
Variables plain ema : extractor.
Variable y : list Z.
Hypothesis SM : softmax_ok softmax.
Hypothesis LS : forall z, length (log_softmax z) = length z.
Hypothesis AM : argmax_ok argmax.
Hypothesis K : (0 < k)%nat.
Hypothesis QS : (0 < ds_queue cfg)%Z.
Hypothesis PS : (0 < ds_period cfg)%Z.
Hypothesis LY : length y = n_l.
Hypothesis Y : forall c, In c y -> (0 <= c < Z.of_nat k)%Z.
Hypothesis NO : forall t il iu, daso_ok (length il) (length iu) k d (net t il iu).
Hypothesis FO : forall t w il, table (length il) d (feats t w il).
Variable all : list (list nat * list nat).
Hypothesis GS : good_steps n_l n_u b all.
Let teacher := teacher_at student (ds_decay cfg) (student 0%Z).
Let W (u : nat) : list tensor := weights_for cfg student closure plain ema (Z.of_nat u) (teacher u).
Let q := Z.to_nat (ds_queue cfg).

Definition seen (t c : nat) : list (list Q) := concat (map (fun u => class_rows c (labels y all u) (labelled_feats feats W all u)) (seq 0 t)).
(* the state when the steps of [past] targets are done *)
Definition inv (past : list (list (list Q))) (st : option daso_state) : Prop :=
  let s := match st with Some s => s | None => daso_init k end in let P := fun u => nth u past [] in
  dq s = map (fun c => recent q (seen (length past) c)) (seq 0 k) /\
  dm s = map (frequency argmax cfg k P (length past)) (seq 0 k) /\
  da s = map (fun c => countZ (Z.of_nat c) (pending argmax cfg P (length past))) (seq 0 k) /\
  forall p, In p (concat past) -> length p = k.

Lemma init_inv : inv [] None.
Proof.
  unfold inv, daso_init. cbn [dq dm da length]. unfold frequency, pending, chosen_classes. rewrite Nat.div_0_l, Nat.mod_0_l by lia. cbn [Nat.mul seq map concat].
  assert (R : forall (A : Type) (x : A) m s, repeat x m = map (fun _ : nat => x) (seq s m)) by (intros A x; induction m as [|m IH]; intros s; [reflexivity|]; cbn [repeat seq map]; now rewrite <- IH).
  split; [apply R|]. split; [apply R|]. split; [apply R|intros p []].
Qed.

Lemma rows_nonempty n w (l : list (list Q)) : (0 < w)%nat -> table n w l -> forall r, In r l -> r <> [].
Proof. intros H [_ T] r I E. specialize (T r I). rewrite E in T. cbn in T. lia. Qed.

Lemma semantic_spec t f : semantic softmax norm cfg (map (prototype d) (map (fun c => recent q (seen (S t) c)) (seq 0 k))) f = semantics softmax norm cfg k d feats W y all t f.
Proof. 
  unfold semantic, semantics, prototypes. f_equal. rewrite !map_map. apply map_ext. intros c. rewrite prototype_centre, dot_inner. reflexivity.
Qed.

Lemma step_spec past st il iu : length past = length (firstn (length past) all) -> nth_error all (length past) = Some (il, iu) -> inv past st ->
  let t := length past in
  exists loss st' targets,
    daso_step softmax log_softmax ce argmax pow log norm cfg (Z.of_nat t) st (with_feats (net (Z.of_nat t) il iu) (feats (Z.of_nat t) (W t) il)) (map (fun i => nth i y 0%Z) il) = Ok (loss, st') /\
    inv (past ++ [targets]) (Some st') /\ length targets = length iu /\
    (forall P, P t = targets -> (forall u, (u < t)%nat -> P u = nth u past []) ->
       (forall r, (r < length targets)%nat -> daso_target softmax argmax pow norm cfg k d feats W y all P t (nth r (do_w (outs net all t)) []) (nth r (do_fw (outs net all t)) []) (nth r targets [])) /\
       daso_loss softmax log_softmax ce argmax log norm cfg k d net feats W y all P t loss).
Proof using All.
  intros _ EN (I1 & I2 & I3 & I4). cbv zeta. set (t := length past) in *.
  assert (IN : In (il, iu) all) by (eapply nth_error_In; exact EN).
  destruct (GS il iu IN) as [(NL & _ & NDL & BL) (NU & _ & NDU & BU)].
  assert (LL : (0 < length il)%nat) by (destruct il; [easy|cbn; lia]). assert (LU : (0 < length iu)%nat) by (destruct iu; [easy|cbn; lia]).
  assert (EN' : nth t all ([], []) = (il, iu)) by (apply nth_error_nth; exact EN).
  destruct (NO (Z.of_nat t) il iu) as (T1 & T2 & T3 & T4 & T5). set (o := net (Z.of_nat t) il iu) in *.
  assert (EO : outs net all t = o) by (unfold outs; now rewrite EN').
  set (yb := map (fun i => nth i y 0%Z) il). assert (EY : labels y all t = yb) by (unfold labels; now rewrite EN').
  set (fl := feats (Z.of_nat t) (W t) il). assert (EF : labelled_feats feats W all t = fl) by (unfold labelled_feats; now rewrite EN').
  assert (TF : table (length il) d fl) by apply FO.
  assert (LYB : length yb = length il) by apply map_length.
  assert (YB : forall c, In c yb -> (0 <= c < Z.of_nat k)%Z).
  { intros c I. apply in_map_iff in I. destruct I as (i & <- & I). apply Y, nth_In. rewrite LY. now apply BL. }
  unfold daso_step. cbn [with_feats do_l do_w do_fw do_s do_fs do_fl].
  assert (CK : daso_check (with_feats o fl) yb = Ok tt).
  { unfold daso_check, same_shape. cbn [with_feats do_l do_w do_fw do_s do_fs do_fl].
    rewrite (proj1 T2), (proj1 T4), (proj1 T3), (proj1 T5), (table_width _ _ _ LU T2), (table_width _ _ _ LU T4), (table_width _ _ _ LU T3), (table_width _ _ _ LU T5), (table_width _ _ _ LL T1), (table_width _ _ _ LL TF), !Nat.eqb_refl. cbn [andb negb].
    replace (existsb _ yb) with false; [reflexivity|]. symmetry. apply Bool.not_true_is_false. intros X. apply existsb_exists in X. destruct X as (c & I & X). specialize (YB c I). lia. }
  rewrite CK. cbn [bind]. cbv zeta. rewrite (table_width _ _ _ LL T1), (table_width _ _ _ LU T3).
  set (s := match st with Some s => s | None => daso_init k end) in *.
  set (P0 := fun u => nth u past []) in *.
  assert (EQ : push_all cfg yb fl (dq s) = map (fun c => recent q (seen (S t) c)) (seq 0 k)).
  { rewrite I1. unfold q. rewrite push_all_spec by (try exact QS; rewrite (proj1 TF); symmetry; exact LYB). apply map_ext. intros c. unfold seen. rewrite seq_S, map_app, concat_app. cbn [map concat Nat.add]. now rewrite app_nil_r, EY, EF. }
  rewrite EQ. set (protos := map (prototype d) _).
  set (pre := (Z.of_nat t <? ds_pretrain cfg)%Z).
  set (targets := zipw (target argmax pow cfg pre (dm s)) (map softmax (do_w o)) (map (semantic softmax norm cfg protos) (do_fw o))).
  assert (LT : length targets = length iu) by (unfold targets; rewrite zipw_length; rewrite !map_length; [apply T2|]; rewrite (proj1 T2), (proj1 T3); reflexivity).
  assert (ET : forall r, (r < length iu)%nat -> nth r targets [] = target argmax pow cfg pre (dm s) (softmax (nth r (do_w o) [])) (semantics softmax norm cfg k d feats W y all t (nth r (do_fw o) []))).
  { intros r R. unfold targets. rewrite (zipw_seq _ _ _ [] []) by (rewrite !map_length, (proj1 T2), (proj1 T3); reflexivity). rewrite map_length, (proj1 T2).
    rewrite (nth_map _ (seq 0 (length iu)) r 0%nat) by (rewrite seq_length; exact R). rewrite seq_nth by exact R. cbn [Nat.add].
    rewrite (nth_map softmax (do_w o) r []) by (rewrite (proj1 T2); exact R). rewrite (nth_map (semantic softmax norm cfg protos) (do_fw o) r []) by (rewrite (proj1 T3); exact R). now rewrite <- semantic_spec. }
  assert (LP : forall r, (r < length iu)%nat -> length (softmax (nth r (do_w o) [])) = k) by (intros r R; rewrite (proj1 (SM _)); now apply (table_nth _ _ _ r T2)).
  assert (LSE : forall f, length (semantics softmax norm cfg k d feats W y all t f) = k) by (intros f; unfold semantics; rewrite (proj1 (SM _)); unfold prototypes; now rewrite !map_length, seq_length).
  assert (AR : forall r, (r < length iu)%nat -> (0 <= argmax (softmax (nth r (do_w o) [])) < Z.of_nat k)%Z).
  { intros r R. destruct (AM (softmax (nth r (do_w o) []))) as [X _]; [intros E; specialize (LP r R); rewrite E in LP; cbn in LP; lia|]. unfold lenZ in X. now rewrite LP in X. }
  assert (TG : forall r, (r < length iu)%nat -> length (nth r targets []) = k /\
    if pre then nth r targets [] = softmax (nth r (do_w o) [])
    else if ds_dist_aware cfg then exists v, trust pow k (frequency argmax cfg k P0 t) (Z.to_nat (argmax (softmax (nth r (do_w o) [])))) v /\ blended k v (softmax (nth r (do_w o) [])) (semantics softmax norm cfg k d feats W y all t (nth r (do_fw o) [])) (nth r targets [])
    else blended k (ds_alpha cfg) (softmax (nth r (do_w o) [])) (semantics softmax norm cfg k d feats W y all t (nth r (do_fw o) [])) (nth r targets [])).
  { intros r R. rewrite (ET r R). unfold target. destruct pre; [split; [now apply LP|reflexivity]|]. specialize (AR r R). destruct (ds_dist_aware cfg).
    - assert (BL' := interp_spec k (nth (Z.to_nat (argmax (softmax (nth r (do_w o) [])))) (mixing pow (dm s)) 0) _ _ (LP r R) (LSE (nth r (do_fw o) []))).
      split; [apply BL'|]. eexists. split; [|exact BL']. rewrite I2. apply mixing_spec. lia.
    - assert (BL' := interp_spec k (ds_alpha cfg) _ _ (LP r R) (LSE (nth r (do_fw o) []))). split; [apply BL'|exact BL']. }
  assert (TT : table (length iu) k targets).
  { split; [exact LT|]. intros p I. destruct (In_nth _ _ [] I) as (r & R & <-). apply TG. lia. }
  set (P1 := fun u => nth u (past ++ [targets]) []).
  assert (A1 : forall u, (u < t)%nat -> P1 u = P0 u) by (intros u U; unfold P1, P0; apply app_nth1; exact U).
  assert (A2 : P1 t = targets) by (unfold P1; rewrite app_nth2 by (unfold t; lia); unfold t; now rewrite Nat.sub_diag).
  assert (I4' : forall p, In p (concat (past ++ [targets])) -> length p = k).
  { intros p I. rewrite concat_app in I. apply in_app_or in I. destruct I as [I|I]; [now apply I4|]. cbn [concat] in I. rewrite app_nil_r in I. now apply TT. }
  pose proof (count_labels_spec argmax cfg k PS P1 t) as CL. rewrite A2 in CL.
  rewrite (map_ext (frequency argmax cfg k P1 t) (frequency argmax cfg k P0 t)) in CL by (intros c; apply frequency_ext; [exact PS|exact A1]).
  replace (pending argmax cfg P1 t) with (pending argmax cfg P0 t) in CL.
  2:{ unfold pending. apply chosen_ext. intros u U. symmetry. apply A1. pose proof (Nat.div_mod t (Z.to_nat (ds_period cfg)) ltac:(lia)). nia. }
  rewrite <- I2, <- I3 in CL. rewrite CL; clear CL.
  2:{ intros E. rewrite E in LT. cbn in LT. lia. }
  2:{ intros u p U I. assert (LPk : length p = k). { apply I4', in_concat. exists (P1 u). split; [|exact I]. apply nth_In. rewrite app_length. cbn [length]. fold t. lia. }
      destruct (AM p) as [X _]; [intros ->; cbn in LPk; lia|]. unfold lenZ in X. now rewrite LPk in X. }
  eexists _, _, targets. split; [reflexivity|]. split; [|split; [exact LT|]].
  - assert (LE : length (past ++ [targets]) = S t) by (rewrite app_length; cbn [length]; unfold t; lia).
    unfold inv. cbn [dq dm da]. rewrite LE. repeat split. exact I4'.
  - intros P PT PB. split.
    + intros r R. rewrite EO. rewrite LT in R. destruct (TG r R) as [_ X]. unfold daso_target. fold pre. destruct pre; [exact X|]. destruct (ds_dist_aware cfg); [|exact X].
      destruct X as (v & (g & G1 & G2) & X). exists v. split; [|exact X]. 
      assert (FE : forall c, frequency argmax cfg k P t c = frequency argmax cfg k P0 t c) by (intros c; apply frequency_ext; [exact PS|exact PB]).
      exists g. cbv zeta. rewrite FE. split; [|exact G2]. destruct G1 as [(c & C & E) G1]. split; [exists c; rewrite FE; now split|]. intros c' C'. rewrite FE. now apply G1.
    + unfold daso_loss. rewrite EO, EY, PT, LT. cbv zeta. eexists _, _, _. split; [|split; [|split; [|reflexivity]]].
      * rewrite LYB. apply ce_mean_spec; [exact LL|exact (proj1 T1)|exact LYB].
      * assert (ES : targets = map (fun i => nth i targets []) (seq 0 (length iu))) by (rewrite <- LT; symmetry; apply nth_seq).
        replace (mask_of (ds_cutoff cfg) targets) with (mask_of (ds_cutoff cfg) (map (fun i => nth i targets []) (seq 0 (length iu)))) by (now rewrite <- ES).
        rewrite (mask_spec (ds_cutoff cfg) (fun i => nth i targets []) (length iu)).
        2:{ intros i I X. pose proof (table_nth _ k targets i TT I) as L. rewrite X in L. cbn in L. lia. }
        destruct (ds_hard cfg).
        -- rewrite (zipw_seq ce (do_s o) (map argmax targets) [] 0%Z) by (rewrite map_length, (proj1 T4), LT; reflexivity). rewrite (proj1 T4).
           rewrite (map_ext_in _ (fun i => ce (nth i (do_s o) []) (argmax (nth i targets []))) (seq 0 (length iu))); [apply masked_mean_spec|].
           intros i I. apply in_seq in I. rewrite (nth_map argmax targets i []) by (rewrite LT; lia). reflexivity.
        -- rewrite (zipw_seq _ (do_s o) targets [] []) by (rewrite (proj1 T4), LT; reflexivity). rewrite (proj1 T4).
           rewrite (map_ext_in _ (fun r => soft_cross_entropy k (nth r targets []) (log_softmax (nth r (do_s o) []))) (seq 0 (length iu))); [apply masked_mean_spec|].
           intros i I. apply in_seq in I. unfold soft_cross_entropy. rewrite (zipw_seq Qmult _ _ 0 0); rewrite (table_nth _ k targets i TT) by lia; [reflexivity|].
           rewrite LS. symmetry. apply (table_nth _ k _ i T4). lia.
      * fold pre. destruct (pre || Qeq_bool (ds_lambda_align cfg) 0); [reflexivity|].
        rewrite (zipw_seq _ (map (semantic softmax norm cfg protos) (do_fw o)) (do_fs o) [] []) by (rewrite map_length, (proj1 T3), (proj1 T5); reflexivity). rewrite map_length, (proj1 T3).
        match goal with |- average ?l (Qmean ?l') => assert (EL : l' = l) end.
        { apply map_ext_in. intros r R. apply in_seq in R. f_equal. rewrite (nth_map (semantic softmax norm cfg protos) (do_fw o) r []) by (rewrite (proj1 T3); lia). unfold protos. rewrite !semantic_spec.
          rewrite (zipw_seq _ _ _ 0 0) by (rewrite !LSE; reflexivity). rewrite LSE. reflexivity. }
        rewrite EL. apply average_mean. intros X. apply map_eq_nil in X. destruct (length iu); [lia|discriminate X].
Qed.

Lemma steps_spec : forall steps past st, all = firstn (length past) all ++ steps -> length past = length (firstn (length past) all) -> inv past st ->
  exists losses targets, daso_steps softmax log_softmax ce argmax pow log norm cfg net feats student closure plain ema y (Z.of_nat (length past)) steps (teacher (length past)) st = Ok losses /\
    length losses = length steps /\ length targets = length steps /\
    let P := fun u => nth u (past ++ targets) [] in
    forall i, (i < length steps)%nat -> let t := (length past + i)%nat in
      length (P t) = length (snd (nth t all ([], []))) /\
      (forall r, (r < length (P t))%nat -> daso_target softmax argmax pow norm cfg k d feats W y all P t (nth r (do_w (outs net all t)) []) (nth r (do_fw (outs net all t)) []) (nth r (P t) [])) /\
      daso_loss softmax log_softmax ce argmax log norm cfg k d net feats W y all P t (nth i losses 0).
Proof using All.
  induction steps as [|[il iu] steps IH]; intros past st E LF IV.
  - exists [], []. repeat split; cbn in *; lia.
  - set (t := length past) in *.
    assert (EN : nth_error all t = Some (il, iu)) by (rewrite E, nth_error_app2 by lia; rewrite <- LF, Nat.sub_diag; reflexivity).
    assert (LA : (t < length all)%nat) by (apply nth_error_Some; now rewrite EN).
    destruct (step_spec past st il iu LF EN IV) as (loss & st1 & tg & ES & IV1 & LT & HS). cbv zeta in *. fold t in ES, HS.
    assert (L1 : length (past ++ [tg]) = S t) by (rewrite app_length; cbn [length]; unfold t; lia).
    destruct (IH (past ++ [tg]) (Some st1)) as (losses & tgs & EC & LL & LTS & HC).
    + rewrite L1. assert (X : firstn (S t) all = firstn t all ++ [(il, iu)]).
      { rewrite E at 1. rewrite firstn_app, <- LF. replace (S t - t)%nat with 1%nat by lia. rewrite (firstn_all2 (firstn t all)) by lia. reflexivity. }
      rewrite X, <- app_assoc. exact E.
    + rewrite L1, firstn_length. lia.
    + exact IV1.
    + rewrite L1 in EC. exists (loss :: losses), (tg :: tgs). split; [|split; [cbn; now rewrite LL|split; [cbn; now rewrite LTS|]]].
      * cbn [daso_steps]. fold (W t). rewrite ES. cbn [bind].
        replace (Z.of_nat t + 1)%Z with (Z.of_nat (S t)) by lia.
        change (update_teacher (ds_decay cfg) (student (Z.of_nat (S t))) (teacher t)) with (teacher (S t)). rewrite EC. reflexivity.
      * assert (PE : past ++ tg :: tgs = (past ++ [tg]) ++ tgs) by (rewrite <- app_assoc; reflexivity). rewrite PE.
        intros [|i] Hi; cbn zeta; cbn [nth].
        -- rewrite Nat.add_0_r.
           assert (PT : nth t ((past ++ [tg]) ++ tgs) [] = tg) by (rewrite <- PE, app_nth2 by (unfold t; lia); unfold t; now rewrite Nat.sub_diag).
           assert (PB : forall u, (u < t)%nat -> nth u ((past ++ [tg]) ++ tgs) [] = nth u past []) by (intros u U; rewrite <- PE; apply app_nth1; exact U).
           destruct (HS (fun u => nth u ((past ++ [tg]) ++ tgs) []) PT PB) as [H1 H2]. rewrite PT. split; [|split; [exact H1|exact H2]].
           rewrite LT. rewrite (nth_error_nth _ _ _ EN). reflexivity.
        -- specialize (HC i ltac:(cbn in Hi; lia)). cbn zeta in HC. rewrite L1 in HC. replace (S t + i)%nat with (t + S i)%nat in HC by lia. exact HC.
Qed.
End Fit.

Lemma numbers_spec cfg : match daso_numbers cfg with Ok _ => daso_numbers_ok cfg | Err e => e = InductiveValidationError /\ ~ daso_numbers_ok cfg end.
Proof.
  unfold daso_numbers, in_unit, daso_numbers_ok.
  destruct (Qle_bool 0 (ds_lambda_u cfg)) eqn:E1; cbn [negb]; [apply Qle_bool_iff in E1|apply Qle_bool_false in E1; split; [reflexivity|lra]].
  destruct (Qle_bool 0 (ds_lambda_align cfg)) eqn:E2; cbn [negb]; [apply Qle_bool_iff in E2|apply Qle_bool_false in E2; split; [reflexivity|lra]].
  destruct (Qle_bool 0 (ds_cutoff cfg)) eqn:E3; cbn [andb negb]; [apply Qle_bool_iff in E3|apply Qle_bool_false in E3; split; [reflexivity|lra]].
  destruct (Qle_bool (ds_cutoff cfg) 1) eqn:E4; cbn [andb negb]; [apply Qle_bool_iff in E4|apply Qle_bool_false in E4; split; [reflexivity|lra]].
  destruct (Qle_bool (ds_t_proto cfg) 0) eqn:E5; [apply Qle_bool_iff in E5; split; [reflexivity|lra]|apply Qle_bool_false in E5].
  destruct (Qle_bool (ds_t_dist cfg) 0) eqn:E6; [apply Qle_bool_iff in E6; split; [reflexivity|lra]|apply Qle_bool_false in E6].
  destruct (Z.leb_spec (ds_queue cfg) 0); [split; [reflexivity|intros X; lia]|].
  destruct (Z.ltb_spec (ds_pretrain cfg) 0); [split; [reflexivity|intros X; lia]|].
  destruct (Z.leb_spec (ds_period cfg) 0); [split; [reflexivity|intros X; lia]|].
  destruct (Qle_bool 0 (ds_decay cfg)) eqn:E7; cbn [andb negb]; [apply Qle_bool_iff in E7|apply Qle_bool_false in E7; split; [reflexivity|lra]].
  destruct (Qle_bool (ds_decay cfg) 1) eqn:E8; cbn [andb negb]; [apply Qle_bool_iff in E8|apply Qle_bool_false in E8; split; [reflexivity|lra]].
  destruct (Qle_bool 0 (ds_alpha cfg)) eqn:E9; cbn [andb negb]; [apply Qle_bool_iff in E9|apply Qle_bool_false in E9; split; [reflexivity|lra]].
  destruct (Qle_bool (ds_alpha cfg) 1) eqn:E10; cbn [andb negb]; [apply Qle_bool_iff in E10|apply Qle_bool_false in E10; split; [reflexivity|lra]].
  repeat split; assumption.
Qed.

(* ------------------------------------------------------------------ trust *)
Lemma pow_nonneg pow x : pow_ok pow -> 0 <= x -> 0 <= pow x.
Proof. intros [H Z] X. destruct (H 0 x ltac:(lra) X) as [A B]. destruct (Qlt_le_dec 0 x) as [L|L]; [specialize (A L); lra|]. rewrite <- B by lra. rewrite Z. lra. Qed.
Lemma pow_le pow x z : pow_ok pow -> 0 <= x -> x <= z -> pow x <= pow z.
Proof. intros [H _] X L. destruct (H x z X ltac:(lra)) as [A B]. destruct (Qlt_le_dec x z) as [M|M]; [specialize (A M); lra|]. rewrite B by lra. lra. Qed.
Lemma trust_range pow k freq c v : pow_ok pow -> (c < k)%nat -> trust pow k freq c v -> 0 <= v <= 1.
Proof.
  intros PO C (g & [_ G] & E). specialize (G c C). cbv beta in *. set (f := pow (Qmax (freq c) (1 # 1000000000000))) in *.
  assert (N : 0 <= f) by (apply pow_nonneg; [exact PO|]; pose proof (Q.le_max_r (freq c) (1 # 1000000000000)); lra).
  pose proof (Q.le_max_l g (1 # 1000000000000)). pose proof (Q.le_max_r g (1 # 1000000000000)). set (m := Qmax g (1 # 1000000000000)) in *. clearbody m f.
  rewrite E. split; [apply Qle_shift_div_l; [lra|lra]|apply Qle_shift_div_r; lra].
Qed.
Lemma trust_mono pow k freq c c' v v' : pow_ok pow -> (c < k)%nat -> (c' < k)%nat -> trust pow k freq c v -> trust pow k freq c' v' -> freq c <= freq c' -> v <= v'.
Proof.
  intros PO C C' (g & [(a & A & EA) G] & E) (g' & [(a' & A' & EA') G'] & E') L. cbv beta in *.
  assert (GG : g == g') by (pose proof (G a' A'); pose proof (G' a A); lra).
  assert (F : pow (Qmax (freq c) (1 # 1000000000000)) <= pow (Qmax (freq c') (1 # 1000000000000))).
  { apply pow_le; [exact PO|pose proof (Q.le_max_r (freq c) (1 # 1000000000000)); lra|]. apply Q.max_le_compat_r. exact L. }
  rewrite E, E', GG. pose proof (Q.le_max_r g' (1 # 1000000000000)). set (m := Qmax g' (1 # 1000000000000)) in *. clearbody m.
  apply Qmult_le_compat_r; [exact F|]. apply Qinv_le_0_compat. lra.
Qed.
Lemma trust_top pow k freq c v : pow_ok pow -> (c < k)%nat -> trust pow k freq c v -> (forall j, (j < k)%nat -> freq j <= freq c) ->
  (1 # 1000000000000) <= pow (Qmax (freq c) (1 # 1000000000000)) -> v == 1.
Proof.
  intros PO C (g & [(a & A & EA) G] & E) M T. cbv beta in *.
  assert (F : pow (Qmax (freq a) (1 # 1000000000000)) <= pow (Qmax (freq c) (1 # 1000000000000))).
  { apply pow_le; [exact PO|pose proof (Q.le_max_r (freq a) (1 # 1000000000000)); lra|]. apply Q.max_le_compat_r. now apply M. }
  specialize (G c C). set (f := pow (Qmax (freq c) (1 # 1000000000000))) in *. assert (GE : g == f) by lra.
  rewrite E, GE. rewrite (Q.max_l f) by exact T. field. lra.
Qed.
Lemma blended_distribution k v p q s : 0 <= v <= 1 -> length p = k -> length q = k -> distribution p -> distribution q -> blended k v p q s -> distribution s.
Proof.
  intros V LP LQ DP DQ [L E]. apply (distribution_nth k p LP) in DP. apply (distribution_nth k q LQ) in DQ. apply (distribution_nth k s L). destruct DP as [NP SP], DQ as [NQ SQ]. split.
  - intros c C. rewrite (E c C). specialize (NP c C). specialize (NQ c C). nra.
  - rewrite (Qsum_ext _ (fun c => (1 - v) * nth c p 0 + v * nth c q 0)) by (intros c I; apply in_seq in I; apply E; lia).
    rewrite Qsum_plus, !Qsum_scale, SP, SQ. ring.
Qed.
Lemma frequency_nonneg argmax cfg k P t c : (0 < k)%nat -> 0 <= frequency argmax cfg k P t c.
Proof.
  intros K. unfold frequency, how_often. destruct (t / _)%nat; [apply Qle_shift_div_l; [apply inject_pos; lia|lra]|].
  set (l := chosen_classes argmax P _ _). pose proof (countZ_nonneg (Z.of_nat c) l). unfold lenZ. destruct l as [|x l]; [vm_compute; discriminate|].
  apply Qle_shift_div_l; [apply inject_pos; cbn [length]; lia|]. rewrite Qmult_0_l. now apply inject_nonneg.
Qed.

Lemma fit_spec {St} (G : Gen St) softmax log_softmax ce argmax pow log norm cfg net feats student closure plain ema y ema0 same n_l n_u n_s b max_epochs sl su k d :
  gen_ok G -> softmax_ok softmax -> argmax_ok argmax -> (forall z, length (log_softmax z) = length z) -> (0 < k)%nat ->
  length y = n_l -> (forall c, In c y -> (0 <= c < Z.of_nat k)%Z) -> (forall t il iu, daso_ok (length il) (length iu) k d (net t il iu)) ->
  (forall t w il, table (length il) d (feats t w il)) -> (forall t, same_params (student t) (student 0%Z)) ->
  match daso_fit softmax log_softmax ce argmax pow log norm cfg G net feats student closure plain ema y ema0 same n_l n_u n_s b max_epochs sl su with
  | Ok losses => daso_numbers_ok cfg /\ n_s = n_u /\ exists epochs W T P,
      fit_batches G n_l n_u b max_epochs sl su = Ok epochs /\
      (forall u, same_params (student 0%Z) (T u) /\ forall p j, param p j (T u) == running (fun x => x) (ds_decay cfg) (param p j (student 0%Z)) (map (fun i => param p j (student (Z.of_nat i))) (seq 1 u))) /\
      (ds_use_ema cfg = false -> forall u, W u = student (Z.of_nat u)) /\
      (ds_use_ema cfg = true -> takes_weights plain ema -> forall u, W u = T u) /\
      daso_run softmax log_softmax ce argmax pow log norm cfg k d net feats W y (concat epochs) P losses
  | Err e => e = InductiveValidationError /\
      (n_l = 0%nat \/ n_u = 0%nat \/ n_s <> n_u \/ (b <= 0)%Z \/ (max_epochs <= 0)%Z \/ ~ daso_numbers_ok cfg \/
       (ds_use_ema cfg = true /\ (same = true \/ ~ Forall2 (fun a b => tshape a = tshape b /\ tdevice a = tdevice b) (student 0%Z) ema0)))
  end.
Proof.
  intros GO SM AM LS K LY Y NO FO SP. unfold daso_fit.
  destruct (Nat.eqb n_l 0 || Nat.eqb n_u 0 || Nat.eqb n_s 0) eqn:E0; [split; [reflexivity|lia]|].
  destruct (negb (Nat.eqb n_u n_s)) eqn:E1; [split; [reflexivity|lia]|].
  pose proof (fit_batches_spec G n_l n_u b max_epochs sl su GO) as FB.
  destruct (fit_batches G n_l n_u b max_epochs sl su) as [epochs|ex] eqn:EF; cbn [bind]; [|destruct FB as [-> N]; split; [reflexivity|lia]].
  pose proof (numbers_spec cfg) as CN. destruct (daso_numbers cfg) as [[]|ex]; cbn [bind]; [|destruct CN as [-> CN]; tauto].
  destruct FB as (NL & NU & B & ME & LE & k_l & k_u & JL & JU & FB). rewrite Forall_forall in FB.
  assert (GS : good_steps n_l n_u b (concat epochs)).
  { intros il iu I. apply in_concat in I. destruct I as (st & I & J). destruct (FB st I) as (_ & F1 & _ & F2 & _). rewrite Forall_forall in F1, F2.
    split; [apply F1; now apply (in_map fst) in J|apply F2; now apply (in_map snd) in J]. }
  assert (CT : match (if ds_use_ema cfg then check_teacher same (student 0%Z) ema0 else Ok tt) with Ok _ => True
               | Err e => e = InductiveValidationError /\ ds_use_ema cfg = true /\ (same = true \/ ~ Forall2 (fun a b => tshape a = tshape b /\ tdevice a = tdevice b) (student 0%Z) ema0) end).
  { destruct (ds_use_ema cfg); [|exact I]. pose proof (check_teacher_spec same (student 0%Z) ema0) as CT. destruct (check_teacher _ _ _); [exact I|tauto]. }
  destruct (if ds_use_ema cfg then _ else _) as [u0|ex]; cbn [bind]; [clear CT|destruct CT as [-> CT]; tauto].
  assert (QS : (0 < ds_queue cfg)%Z) by apply CN. assert (PS : (0 < ds_period cfg)%Z) by apply CN.
  destruct (steps_spec softmax log_softmax ce argmax pow log norm cfg k d n_l n_u b net feats student closure plain ema y SM LS AM K QS PS LY Y NO FO (concat epochs) GS (concat epochs) [] None eq_refl eq_refl)
    as (losses & tgs & E & L & LT & H).
  { eapply init_inv; eassumption. }
  change (Z.of_nat (length (@nil (list (list Q))))) with 0%Z in E. cbn [length teacher_at] in E. rewrite E. split; [exact CN|]. split; [lia|].
  exists epochs, (fun u => weights_for cfg student closure plain ema (Z.of_nat u) (teacher_at student (ds_decay cfg) (student 0%Z) u)), (teacher_at student (ds_decay cfg) (student 0%Z)), (fun u => nth u tgs []).
  split; [reflexivity|]. split; [intros u; apply (teacher_spec student (ds_decay cfg) SP u)|]. split; [|split].
  - intros U u. unfold weights_for, feature_source. now rewrite U.
  - intros U TW u. unfold weights_for, feature_source. rewrite U. cbn [negb]. destruct TW as [-> | [-> TW]]; [reflexivity|]. destruct plain; [reflexivity|contradiction|reflexivity].
  - split; [exact L|]. intros t Ht. specialize (H t Ht). cbn in H. exact H.
Qed.
