From Coq Require Import QArith Qminmax Permutation Lqa Lia ZifyBool ZifyNat.
From Verif Require Import Prelude QFacts DeepBatchModel DeepBatchSpec DeepBatchProofs DeepLossModel DeepLossSpec DeepLossProofs CoMatchModel CoMatchSpec CoMatchProofs DasoModel DasoSpec DasoProofs ClrModel ClrSpec.
Local Open Scope Z_scope.
Local Open Scope Q_scope.
Local Open Scope list_scope.

Lemma store_same {M} (h : heap M) m c : store h m c m = c.
Proof. unfold store. now rewrite Nat.eqb_refl. Qed.
Lemma store_other {M} (h : heap M) m c i : i <> m -> store h m c i = h i.
Proof. intros N. unfold store. now rewrite (proj2 (Nat.eqb_neq i m) N). Qed.

Section Clr.
Context {M St : Type}.
Variable G : Gen St.
Variable manual_seed : Z -> St.
Variable proj : nat -> M -> view -> list nat -> list (list Q).
Variable logits : nat -> bool -> M -> view -> list nat -> list (list Q).
Variable optim : nat -> M -> objective -> M.
Variable load : M -> M -> option M.
Variable shares : nat -> nat -> bool.
Variable binds : nat -> bool.
Variable softmax : list Q -> list Q.
Variable lse : list Q -> Q.
Variable norm : list Q -> Q.
Variable y : list Z.
Variable cfg : clr_config.
Variables (n_l d k : nat).
Hypothesis OKG : gen_ok G.
Hypothesis OKP : forall b w v idx, table (length idx) d (proj b w v idx).
Hypothesis OKL : forall b tr w v idx, table (length idx) k (logits b tr w v idx).
Hypothesis OKY : forall i, (i < n_l)%nat -> (0 <= nth i y 0 < Z.of_nat k)%Z.

(* a loop whose steps train b and read other models only *)
Lemma run_ok {A} (b : bundle) (f : A -> heap M -> heap M * result unit) (g : M -> A -> M) (h0 : heap M) l :
  (forall a h, In a l -> (forall m, m <> b_model b -> h m = h0 m) -> c_frozen (h (b_model b)) = false ->
     f a h = (store h (b_model b) {| c_weights := g (c_weights (h (b_model b))) a; c_frozen := false |}, Ok tt)) ->
  forall h, (forall m, m <> b_model b -> h m = h0 m) -> c_frozen (h (b_model b)) = false ->
  exists h', run f l h = (h', Ok tt) /\ h' (b_model b) = {| c_weights := fold_left g l (c_weights (h (b_model b))); c_frozen := false |} /\ (forall m, m <> b_model b -> h' m = h m).
Proof.
  induction l as [|a r IH]; intros F h O Z0; cbn [run fold_left].
  - exists h. split; [reflexivity|]. split; [|reflexivity]. destruct (h (b_model b)) as [w fr]. cbn in *. now subst.
  - rewrite (F a h (or_introl eq_refl) O Z0).
    destruct (IH (fun a' h' I => F a' h' (or_intror I)) (store h (b_model b) {| c_weights := g (c_weights (h (b_model b))) a; c_frozen := false |})) as (h' & E & W & U).
    + intros m N. rewrite store_other by exact N. now apply O.
    + now rewrite store_same.
    + exists h'. split; [exact E|]. rewrite store_same in W. split; [exact W|]. intros m N. rewrite (U m N). now apply store_other.
Qed.
Lemma run_frozen {A} (f : A -> heap M -> heap M * result unit) a r h : f a h = (h, Err RuntimeError) -> run f (a :: r) h = (h, Err RuntimeError).
Proof. intros E. cbn [run]. now rewrite E. Qed.

Lemma nt_xent_fine z1 z2 t n : 0 < t -> table n d z1 -> table n d z2 -> (0 < n)%nat -> exists v, nt_xent lse norm t (z1 ++ z2) = Ok v.
Proof.
  intros T (L1 & _) (L2 & _) N. unfold nt_xent. rewrite app_length, L1, L2.
  destruct (Qle_bool t 0) eqn:E; [apply Qle_bool_iff in E; lra|].
  rewrite (proj2 (Nat.ltb_ge (n + n) 2)) by lia.
  replace (n + n)%nat with (n * 2)%nat by lia. rewrite Nat.mod_mul by lia. cbn. eauto.
Qed.
Lemma labels_fine il b tr w v : Forall (fun i => (i < n_l)%nat) il -> il <> [] -> labels_fit (width (logits b tr w v il)) (labels_of y il) = true.
Proof.
  intros F N. unfold labels_fit. apply negb_true_iff. apply Bool.not_true_iff_false. intros E. apply existsb_exists in E. destruct E as (c & I & E).
  unfold labels_of in I. apply in_map_iff in I. destruct I as (i & <- & I). rewrite Forall_forall in F. specialize (OKY i (F i I)).
  rewrite (DeepLossProofs.table_width (length il) k (logits b tr w v il) (OKL b tr w v il)) in E by (destruct il; [easy|cbn; lia]). lia.
Qed.
Lemma shape_fine n w a b : table n w a -> table n w b -> same_shape a b = true.
Proof.
  intros A B. unfold same_shape. rewrite (proj1 A), (proj1 B), Nat.eqb_refl. cbn. destruct n as [|n].
  - destruct A as [A _], B as [B _]. destruct a, b; try discriminate. reflexivity.
  - rewrite (DeepLossProofs.table_width _ _ _ A), (DeepLossProofs.table_width _ _ _ B) by lia. apply Nat.eqb_refl.
Qed.

Lemma stage_batches_spec n epochs steps seed : (0 < n)%nat -> (0 < cl_b cfg)%Z -> (0 <= epochs)%Z -> (0 <= steps)%Z ->
  exists bs, stage_batches G manual_seed cfg n epochs steps seed = Ok bs /\ plan n (cl_b cfg) epochs steps bs.
Proof.
  intros N B E0 S0. unfold stage_batches.
  destruct (epoch_spec G OKG n (cl_b cfg) N B (Z.to_nat epochs) steps S0 (manual_seed seed)) as (es & s' & E & L & F). rewrite E. cbn [bind].
  exists (concat es). split; [reflexivity|]. exists es, (num_batches (Z.of_nat n) (cl_b cfg)).
  split; [reflexivity|]. split; [unfold lenZ; lia|]. split; [apply num_batches_enough; lia|exact F].
Qed.
Lemma plan_proper n b e s bs : plan n b e s bs -> Forall (proper_batch n b) bs.
Proof.
  intros (es & k' & -> & _ & _ & F). apply Forall_forall. intros x I. apply in_concat in I. destruct I as (l & Il & I).
  rewrite Forall_forall in F. destruct (F l Il) as (_ & P & _). rewrite Forall_forall in P. now apply P.
Qed.
Lemma plan_length n b e s bs : plan n b e s bs -> (0 <= s)%Z -> lenZ bs = (e * s)%Z.
Proof.
  intros (es & k' & -> & <- & _ & F) S0. induction es as [|x r IH]; [cbn; lia|].
  inversion F; subst. destruct H1 as (L & _). cbn [concat]. unfold lenZ in *. rewrite app_length. cbn [length]. specialize (IH H2). lia.
Qed.
Lemma plan_cons n b e s bs : plan n b e s bs -> (0 < e)%Z -> (0 < s)%Z -> exists x r, bs = x :: r.
Proof. intros P E S0. pose proof (plan_length _ _ _ _ _ P ltac:(lia)) as L. destruct bs; [unfold lenZ in L; cbn in L; nia|eauto]. Qed.
Lemma batches_pos n b : (0 < num_batches n b)%Z. Proof. unfold num_batches. lia. Qed.

Lemma pretrain_spec n_u seed h : clr_numbers_ok cfg -> ((0 < cl_pe cfg)%Z -> (0 < n_u)%nat) ->
  match pretrain_stage G manual_seed proj optim lse norm cfg n_u seed (pretrained cfg) h with
  | (h', Ok _) => pretrains optim cfg n_u h h'
  | (h', Err e) => e = RuntimeError /\ exists m, c_frozen (h m) = true
  end.
Proof.
  intros (B & PE & _ & _ & _ & _ & T & _) N. unfold pretrain_stage, pretrains.
  destruct (pretrained cfg) as [b|] eqn:Ep; [|intros ?; reflexivity].
  assert (P0 : (0 < cl_pe cfg)%Z). { unfold pretrained in Ep. destruct (0 <? cl_pe cfg)%Z eqn:E; [lia|discriminate]. }
  rewrite (proj2 (Z.ltb_lt 0 _) P0). specialize (N P0).
  destruct (stage_batches_spec n_u (cl_pe cfg) (num_batches (Z.of_nat n_u) (cl_b cfg)) seed N B PE ltac:(pose proof (batches_pos (Z.of_nat n_u) (cl_b cfg)); lia)) as (bs & E & P).
  rewrite E. pose proof (plan_proper _ _ _ _ _ P) as PP.
  assert (ST : forall idx h1, In idx bs -> pre_step proj optim lse norm cfg b idx h1 = train_on optim b (Contrast idx) h1).
  { intros idx h1 I. unfold pre_step. rewrite Forall_forall in PP. destruct (PP idx I) as (NE & _).
    rewrite (shape_fine (length idx) d) by apply OKP. cbn [negb].
    destruct (nt_xent_fine _ _ (cl_temp cfg) (length idx) T (OKP (b_id b) (c_weights (h1 (b_model b))) Weak idx) (OKP (b_id b) (c_weights (h1 (b_model b))) Strong idx)) as (v & Ev); [destruct idx; [easy|cbn; lia]|].
    now rewrite Ev. }
  destruct (c_frozen (h (b_model b))) eqn:Fz.
  - destruct (plan_cons _ _ _ _ _ P P0 (batches_pos _ _)) as (x & r & ->).
    rewrite run_frozen; [split; [reflexivity|now exists (b_model b)]|]. rewrite (ST x h (or_introl eq_refl)). unfold train_on. now rewrite Fz.
  - destruct (run_ok b (pre_step proj optim lse norm cfg b) (fun w idx => optim (b_id b) w (Contrast idx)) h bs) with (h := h) as (h' & R & W & U).
    + intros a h1 I _ Z0. rewrite (ST a h1 I). unfold train_on. now rewrite Z0.
    + reflexivity.
    + exact Fz.
    + rewrite R. exists (num_batches (Z.of_nat n_u) (cl_b cfg)), bs. split; [apply num_batches_enough; lia|]. split; [exact P|]. split; [exact Fz|]. split; assumption.
Qed.
Lemma transfer_spec h :
  match transfer_stage load cfg (pretrained cfg) (tuned cfg) h with
  | (h', Ok _) => transfers load cfg h h' /\ forall m, c_frozen (h' m) = c_frozen (h m)
  | (h', Err e) => e = InductiveValidationError /\ exists w w', load w w' = None
  end.
Proof.
  unfold transfer_stage, transfers. destruct (pretrained cfg) as [p|] eqn:Ep; [|split; [intros ?; reflexivity|reflexivity]].
  destruct (tuned cfg) as [f|] eqn:Ef; [|split; [intros ?; reflexivity|reflexivity]].
  assert (P0 : (0 <? cl_pe cfg)%Z = true). { unfold pretrained in Ep. destruct (0 <? cl_pe cfg)%Z eqn:E; [reflexivity|discriminate]. }
  rewrite P0, andb_true_r. destruct (cl_transfer cfg && negb (b_id p =? b_id f)%nat); [|split; [intros ?; reflexivity|reflexivity]].
  destruct (load _ _) as [w|] eqn:L; [|split; [reflexivity|eauto]].
  split; [split|].
  - exists w. rewrite store_same. auto.
  - intros m N. now apply store_other.
  - intros m. unfold store. destruct (Nat.eqb_spec m (b_model f)) as [->|]; reflexivity.
Qed.
Lemma fine_spec seed h : clr_numbers_ok cfg -> ((0 < cl_fe cfg)%Z -> (0 < n_l)%nat) -> ((0 < cl_fe cfg)%Z -> tuned cfg <> None) ->
  match fine_stage G manual_seed logits optim y cfg n_l seed (tuned cfg) h with
  | (h', Ok _) => tunes optim cfg n_l h h'
  | (h', Err e) => e = RuntimeError /\ exists m, c_frozen (h m) = true
  end.
Proof.
  intros (B & _ & FE & _) N _. unfold fine_stage, tunes.
  destruct (tuned cfg) as [b|] eqn:Ep; [|destruct (0 <? cl_fe cfg)%Z; intros ?; reflexivity].
  destruct (0 <? cl_fe cfg)%Z eqn:P0; [|intros ?; reflexivity]. apply Z.ltb_lt in P0. specialize (N P0).
  destruct (stage_batches_spec n_l (cl_fe cfg) (num_batches (Z.of_nat n_l) (cl_b cfg)) (seed + 1) N B FE ltac:(pose proof (batches_pos (Z.of_nat n_l) (cl_b cfg)); lia)) as (bs & E & P).
  rewrite E. pose proof (plan_proper _ _ _ _ _ P) as PP.
  assert (ST : forall idx h1, In idx bs -> fine_step logits optim y b idx h1 = train_on optim b (Supervised idx) h1).
  { intros idx h1 I. unfold fine_step. rewrite Forall_forall in PP. destruct (PP idx I) as (NE & _ & _ & R).
    rewrite labels_fine; [reflexivity|now apply Forall_forall|exact NE]. }
  destruct (c_frozen (h (b_model b))) eqn:Fz.
  - destruct (plan_cons _ _ _ _ _ P P0 (batches_pos _ _)) as (x & r & ->).
    rewrite run_frozen; [split; [reflexivity|now exists (b_model b)]|]. rewrite (ST x h (or_introl eq_refl)). unfold train_on. now rewrite Fz.
  - destruct (run_ok b (fine_step logits optim y b) (fun w il => optim (b_id b) w (Supervised il)) h bs) with (h := h) as (h' & R & W & U).
    + intros a h1 I _ Z0. rewrite (ST a h1 I). unfold train_on. now rewrite Z0.
    + reflexivity.
    + exact Fz.
    + rewrite R. exists (num_batches (Z.of_nat n_l) (cl_b cfg)), bs. split; [apply num_batches_enough; lia|]. split; [exact P|]. split; [exact Fz|]. split; assumption.
Qed.

Lemma distil_batches_spec n_u seed : clr_numbers_ok cfg -> (0 < n_u)%nat -> (cl_labelled cfg = true -> (0 < n_l)%nat) ->
  exists bs, distil_batches G manual_seed cfg n_l n_u seed = Ok bs /\ distil_plan cfg n_l n_u bs.
Proof.
  intros (B & _ & _ & DE & _) NU NL. unfold distil_batches, distil_plan. cbv zeta.
  pose proof (batches_pos (Z.of_nat n_u) (cl_b cfg)) as PU. pose proof (batches_pos (Z.of_nat n_l) (cl_b cfg)) as PL.
  destruct (cl_labelled cfg).
  - specialize (NL eq_refl).
    destruct (stage_batches_spec n_u (cl_de cfg) (Z.max (num_batches (Z.of_nat n_u) (cl_b cfg)) (num_batches (Z.of_nat n_l) (cl_b cfg))) (seed + 2) NU B DE ltac:(lia)) as (us & EU & PlU).
    destruct (stage_batches_spec n_l (cl_de cfg) (Z.max (num_batches (Z.of_nat n_u) (cl_b cfg)) (num_batches (Z.of_nat n_l) (cl_b cfg))) (seed + 3) NL B DE ltac:(lia)) as (ls & EL & PlL).
    rewrite EU. cbn [bind]. rewrite EL. cbn [bind]. exists (combine us (map Some ls)). split; [reflexivity|].
    assert (LL : length us = length (map Some ls)).
    { rewrite map_length. pose proof (plan_length _ _ _ _ _ PlU ltac:(lia)). pose proof (plan_length _ _ _ _ _ PlL ltac:(lia)). unfold lenZ in *. lia. }
    exists (num_batches (Z.of_nat n_u) (cl_b cfg)). split; [apply num_batches_enough; lia|].
    exists (num_batches (Z.of_nat n_l) (cl_b cfg)), ls. split; [apply num_batches_enough; lia|].
    rewrite combine_fst, combine_snd by exact LL. auto.
  - destruct (stage_batches_spec n_u (cl_de cfg) (Z.max (num_batches (Z.of_nat n_u) (cl_b cfg)) 1) (seed + 2) NU B DE ltac:(lia)) as (us & EU & PlU).
    rewrite EU. cbn [bind]. eexists. split; [reflexivity|]. exists (num_batches (Z.of_nat n_u) (cl_b cfg)). split; [apply num_batches_enough; lia|].
    rewrite Z.max_l in PlU by lia. rewrite map_map, map_id. split; [exact PlU|]. apply Forall_forall. intros s I. apply in_map_iff in I. destruct I as (u & <- & _). reflexivity.
Qed.
Lemma distil_plan_proper n_u bs : distil_plan cfg n_l n_u bs ->
  forall iu il, In (iu, il) bs -> proper_batch n_u (cl_b cfg) iu /\ match il with None => True | Some l => proper_batch n_l (cl_b cfg) l end.
Proof.
  intros (ku & _ & H) iu il I. destruct (cl_labelled cfg).
  - destruct H as (kl & ls & _ & PU & PL & E). split.
    + pose proof (plan_proper _ _ _ _ _ PU) as F. rewrite Forall_forall in F. apply F. apply in_map_iff. exists (iu, il). auto.
    + assert (J : In il (map Some ls)) by (rewrite <- E; apply in_map_iff; exists (iu, il); auto).
      apply in_map_iff in J. destruct J as (l & <- & J). pose proof (plan_proper _ _ _ _ _ PL) as F. rewrite Forall_forall in F. now apply F.
  - destruct H as (PU & FN). split.
    + pose proof (plan_proper _ _ _ _ _ PU) as F. rewrite Forall_forall in F. apply F. apply in_map_iff. exists (iu, il). auto.
    + rewrite Forall_forall in FN. specialize (FN _ I). cbn in FN. now subst.
Qed.
Lemma distil_plan_cons n_u bs : distil_plan cfg n_l n_u bs -> (0 < n_u)%nat -> (0 < cl_b cfg)%Z -> (0 < cl_de cfg)%Z -> exists x r, bs = x :: r.
Proof.
  intros (ku & Ku & H) N B D. unfold per_pass, just_enough in Ku. assert (0 < ku)%Z by nia.
  assert (exists x r, map fst bs = x :: r) as (x & r & E).
  { destruct (cl_labelled cfg); [destruct H as (kl & ls & _ & P & _)|destruct H as (P & _)]; eapply plan_cons; try exact P; lia. }
  destruct bs; [discriminate|eauto].
Qed.
Lemma distil_step_ok b teacher tb mode tw iu il (h : heap M) n_u :
  proper_batch n_u (cl_b cfg) iu -> match il with None => True | Some l => proper_batch n_l (cl_b cfg) l end -> teacher h = (tb, mode, tw) ->
  distil_step logits optim softmax y cfg b teacher (iu, il) h = train_on optim b (Distil iu (soft softmax cfg (logits tb mode tw Weak iu)) il) h.
Proof.
  intros PU PL T. unfold distil_step. rewrite T.
  rewrite (shape_fine (length iu) k) by apply OKL. cbn [negb].
  assert (E : distill_targets softmax (cl_dtemp cfg) (logits tb mode tw Weak iu) = soft softmax cfg (logits tb mode tw Weak iu)).
  { unfold distill_targets, soft, scale. now rewrite map_map. }
  rewrite E. destruct il as [l|]; [|reflexivity]. destruct PL as (NE & _ & _ & R).
  rewrite labels_fine; [reflexivity|now apply Forall_forall|exact NE].
Qed.
Lemma distil_spec n_u seed h : clr_numbers_ok cfg -> ((0 < cl_de cfg)%Z -> (0 < n_u)%nat) -> (cl_labelled cfg = true -> (0 < n_l)%nat) ->
  match distil_stage G manual_seed logits optim shares binds softmax y cfg n_l n_u seed (tuned cfg) h with
  | (h', Ok _) => distils logits optim binds softmax cfg n_l n_u h h' /\ clr_student_ok shares cfg
  | (h', Err e) => (e = RuntimeError /\ exists m, c_frozen (h m) = true) \/ (e = InductiveValidationError /\ ~ clr_student_ok shares cfg)
  end.
Proof.
  intros NOK NU NL. unfold distil_stage, distils.
  destruct (tuned cfg) as [f|] eqn:Ef; [|destruct (0 <? cl_de cfg)%Z; (split; [intros ?; reflexivity|intros s f _ _ X; congruence])].
  destruct (0 <? cl_de cfg)%Z eqn:D0; [|split; [intros ?; reflexivity|intros s f' X; lia]]. apply Z.ltb_lt in D0. specialize (NU D0).
  destruct (distil_batches_spec n_u seed NOK NU NL) as (bs & E & P). rewrite E.
  pose proof (distil_plan_proper _ _ P) as PP. destruct (distil_plan_cons _ _ P NU (proj1 NOK) D0) as (x & r & Eb).
  destruct (cl_student cfg) as [s|] eqn:Es.
  - destruct (Nat.eqb (b_model s) (b_model f) || shares (b_model s) (b_model f)) eqn:SH.
    { right. split; [reflexivity|]. intros X. destruct (X s f D0 Es Ef) as (X1 & X2). rewrite X2, orb_false_r in SH. apply Nat.eqb_eq in SH. contradiction. }
    apply orb_false_iff in SH. destruct SH as (NE & SHa). apply Nat.eqb_neq in NE. cbv zeta.
    set (h1 := store h (b_model f) {| c_weights := c_weights (h (b_model f)); c_frozen := true |}).
    set (teacher := fun h2 : heap M => (b_id f, false, c_weights (h2 (b_model f)))).
    assert (H1s : h1 (b_model s) = h (b_model s)) by (apply store_other; exact NE).
    assert (H1f : c_weights (h1 (b_model f)) = c_weights (h (b_model f))) by (unfold h1; now rewrite store_same).
    destruct (c_frozen (h (b_model s))) eqn:Fz.
    { rewrite Eb. destruct x as [iu il]. destruct (PP iu il) as (P1 & P2); [rewrite Eb; now left|].
      rewrite run_frozen; [left; split; [reflexivity|now exists (b_model s)]|].
      rewrite (distil_step_ok s teacher (b_id f) false (c_weights (h1 (b_model f))) iu il h1 n_u P1 P2 eq_refl). unfold train_on. now rewrite H1s, Fz. }
    destruct (run_ok s (distil_step logits optim softmax y cfg s teacher)
      (fun w st => optim (b_id s) w (Distil (fst st) (soft softmax cfg (logits (b_id f) false (c_weights (h (b_model f))) Weak (fst st))) (snd st))) h1 bs) with (h := h1) as (h' & R & W & U).
    + intros [iu il] h2 I O Z0. destruct (PP iu il I) as (P1 & P2).
      rewrite (distil_step_ok s teacher (b_id f) false (c_weights (h2 (b_model f))) iu il h2 n_u P1 P2 eq_refl). unfold train_on. rewrite Z0. cbn [fst snd].
      rewrite (O (b_model f)) by congruence. now rewrite H1f.
    + reflexivity.
    + now rewrite H1s.
    + rewrite R. split.
      * exists bs. split; [exact P|]. cbv zeta. fold h1. split; [now rewrite H1s|]. split; assumption.
      * intros s' f' _ Es' Ef'. rewrite Es in Es'. rewrite Ef in Ef'. injection Es' as <-. injection Ef' as <-. split; assumption.
  - cbv zeta. set (teacher := fun h1 : heap M => if binds (b_id f) then (b_id f, false, c_weights (h (b_model f))) else (b_id f, true, c_weights (h1 (b_model f)))).
    assert (TE : forall h1, exists tb mode tw, teacher h1 = (tb, mode, tw) /\
       forall iu, logits tb mode tw Weak iu = (if binds (b_id f) then logits (b_id f) false (c_weights (h (b_model f))) Weak iu else logits (b_id f) true (c_weights (h1 (b_model f))) Weak iu)).
    { intros h1. unfold teacher. destruct (binds (b_id f)); do 3 eexists; (split; [reflexivity|reflexivity]). }
    destruct (c_frozen (h (b_model f))) eqn:Fz.
    { rewrite Eb. destruct x as [iu il]. destruct (PP iu il) as (P1 & P2); [rewrite Eb; now left|]. destruct (TE h) as (tb & mode & tw & T & _).
      rewrite run_frozen; [left; split; [reflexivity|now exists (b_model f)]|].
      rewrite (distil_step_ok f teacher tb mode tw iu il h n_u P1 P2 T). unfold train_on. now rewrite Fz. }
    destruct (run_ok f (distil_step logits optim softmax y cfg f teacher)
      (fun w st => optim (b_id f) w (Distil (fst st) (soft softmax cfg (if binds (b_id f) then logits (b_id f) false (c_weights (h (b_model f))) Weak (fst st) else logits (b_id f) true w Weak (fst st))) (snd st))) h bs) with (h := h) as (h' & R & W & U).
    + intros [iu il] h2 I O Z0. destruct (PP iu il I) as (P1 & P2). destruct (TE h2) as (tb & mode & tw & T & TL).
      rewrite (distil_step_ok f teacher tb mode tw iu il h2 n_u P1 P2 T). unfold train_on. rewrite Z0. cbn [fst snd]. now rewrite TL.
    + reflexivity.
    + exact Fz.
    + rewrite R. split.
      * exists bs. split; [exact P|]. cbv zeta. split; [exact Fz|]. split; assumption.
      * intros s' f' _ Es' _. congruence.
Qed.
End Clr.
