(* C145, C146: the torch classifiers (logistic regression, MLP, text CNN, image CNN). *)
From Coq Require Import QArith Lqa Lia ZifyBool ZifyNat Permutation.
From Verif Require Import Prelude ListFacts SupervisedModel SupervisedSpec SupervisedProofs DeepLossSpec TclfModel TclfSpec TclfProofs TclfUseProofs DeepLossProps DeepThreshProofs.
Local Open Scope list_scope.
Local Notation length := List.length.
Local Notation argmax_ok := TclfSpec.argmax_ok.

Section Classifiers.
Variables W Op G : Type.
Variable manual_seed : Z -> G.
Variable randperm : G -> nat -> list nat * G.
Variable build : list nat -> G -> W * G.
Variable opt : W -> Op.
Variable step : list (sample * nat) -> W -> Op -> G -> W * Op * G.
Variable logits : W -> sample -> list Q.
Variable softmax : list Q -> list Q.
Variable argmax : list Q -> nat.
Notation logreg := (logreg_fit W Op G manual_seed randperm build opt step).
Notation mlp := (mlp_fit W Op G manual_seed randperm build opt step).
Notation text := (text_fit W Op G manual_seed randperm build opt step).
Notation image := (image_fit W Op G manual_seed randperm build opt step).
Notation scores := (flat_scores W logits softmax).
Notation predict := (predict_of W argmax).

(* C145: when fit returns *)
Theorem C145_logreg_returns sp X y obj g :
  (exists obj' r g', logreg sp X y obj g = (obj', Ok r, g')) <-> flat_data X y /\ loop_ok sp /\ (0 <= ts_lr sp)%Q /\ (0 <= ts_decay sp)%Q.
Proof.
  destruct (logreg_cases W Op G manual_seed randperm build opt step sp X y obj g) as [(e & HE & HN)|(x & l & t & _ & _ & _ & _ & _ & HD & HL & HE)]; rewrite HE.
  - split; [intros (? & ? & ? & H); discriminate H|tauto].
  - rewrite core_returns. split; [tauto|]. intros (_ & _ & A & B). repeat split; try assumption; discriminate.
Qed.
Theorem C145_mlp_returns sp X y obj g :
  (exists obj' r g', mlp sp X y obj g = (obj', Ok r, g')) <->
  flat_data X y /\ loop_ok sp /\ rates_ok sp /\ (forall h, In h (ts_hidden sp) -> (0 < h)%Z) /\ (ts_hidden sp = [] \/ ts_activation_ok sp = true).
Proof.
  unfold rates_ok. destruct (mlp_cases W Op G manual_seed randperm build opt step sp X y obj g) as [(e & HE & HN)|(x & l & t & _ & _ & _ & _ & _ & HD & HL & HR & HH & HE)]; rewrite HE.
  - split; [intros (? & ? & ? & H); discriminate H|tauto].
  - rewrite core_returns. split.
    + intros (A & B & C). split; [exact HD|]. split; [exact HL|]. split; [tauto|]. split; [exact HH|]. destruct (ts_hidden sp) eqn:EH; [now left|right; now apply A].
    + intros (_ & _ & A & _ & B). split; [|split; [destruct A; lra|tauto]]. destruct B as [B|B]; [rewrite B; discriminate|now intros _].
Qed.

(* C145: what a fit that returns has done *)
Theorem C145_mlp_training sp X y obj g obj' r g' s : randperm_ok randperm -> seed_is sp s -> mlp sp X y obj g = (obj', Ok r, g') ->
  exists x l t classes w0 g0 w o, X = Some x /\ y = Some l /\ flattened x t /\ labels_of (l_data l) classes /\
    build (volume (tl (t_shape x)) :: map Z.to_nat (ts_hidden sp) ++ [length classes]) (manual_seed s) = (w0, g0) /\
    trained randperm step (Z.to_nat (ts_batch sp)) t (l_data l) classes (Z.to_nat (ts_epochs sp)) (w0, opt w0, g0) (w, o, g') /\
    tc_model W obj' = Some w /\ tc_classes W obj' = Some (classes, l_dev l) /\ r = {| fr_samples := t_n x; fr_features := volume (tl (t_shape x)); fr_classes := length classes |}.
Proof.
  intros Hp HS HF. apply seed_is_of in HS. destruct (mlp_cases W Op G manual_seed randperm build opt step sp X y obj g) as [(e & HE & _)|(x & l & t & HX & HY & _ & HT & HN & _ & HL & _ & _ & HE)]; rewrite HE in HF; [discriminate|].
  apply core_ok in HF as (classes & w0 & g0 & w & o & H1 & H2 & H3 & H4 & H5 & _); [|exact Hp|exact HN|apply HL]. cbv iota in H2, H3. rewrite HS in H2. exists x, l, t, classes, w0, g0, w, o. subst obj' r.
  destruct (flattened_volume _ _ HT) as (F1 & F2 & F3). rewrite F1. replace (volume (tl (t_shape t))) with (volume (tl (t_shape x))) by (destruct HT as (_ & HT & _); rewrite HT; cbn [tl]; unfold volume at 2; cbn [fold_right]; now rewrite Nat.mul_1_r).
  do 8 (split; [assumption || reflexivity|]). reflexivity.
Qed.
(* the weights of a logistic regression are drawn from the generator as the caller left it *)
Theorem C145_logreg_training sp X y obj g obj' r g' s : randperm_ok randperm -> seed_is sp s -> logreg sp X y obj g = (obj', Ok r, g') ->
  exists x l t classes w0 g0 w o, X = Some x /\ y = Some l /\ flattened x t /\ labels_of (l_data l) classes /\
    build [volume (tl (t_shape x)); length classes] g = (w0, g0) /\
    trained randperm step (Z.to_nat (ts_batch sp)) t (l_data l) classes (Z.to_nat (ts_epochs sp)) (w0, opt w0, manual_seed s) (w, o, g') /\
    tc_model W obj' = Some w /\ tc_classes W obj' = Some (classes, l_dev l) /\ r = {| fr_samples := t_n x; fr_features := volume (tl (t_shape x)); fr_classes := length classes |}.
Proof.
  intros Hp HS HF. apply seed_is_of in HS. destruct (logreg_cases W Op G manual_seed randperm build opt step sp X y obj g) as [(e & HE & _)|(x & l & t & HX & HY & _ & HT & HN & _ & HL & HE)]; rewrite HE in HF; [discriminate|].
  apply core_ok in HF as (classes & w0 & g0 & w & o & H1 & H2 & H3 & H4 & H5 & _); [|exact Hp|exact HN|apply HL]. cbv iota in H2, H3. rewrite HS in H3. exists x, l, t, classes, w0, g0, w, o. subst obj' r.
  destruct (flattened_volume _ _ HT) as (F1 & F2 & F3). rewrite F1. replace (volume (tl (t_shape t))) with (volume (tl (t_shape x))) by (destruct HT as (_ & HT & _); rewrite HT; cbn [tl]; unfold volume at 2; cbn [fold_right]; now rewrite Nat.mul_1_r).
  do 8 (split; [assumption || reflexivity|]). reflexivity.
Qed.

(* C145: a seeded fit does not depend on the generator the caller left behind *)
Theorem C145_seed sp X y obj g g' :
  fst (mlp sp X y obj g) = fst (mlp sp X y obj g') /\ fst (text sp X y obj g) = fst (text sp X y obj g') /\ fst (image sp X y obj g) = fst (image sp X y obj g').
Proof.
  repeat split.
  - unfold mlp_fit. destruct X as [x|], y as [l|]; try reflexivity. match goal with |- context [match ?m with Ok _ => _ | Err _ => _ end] => destruct m end; reflexivity.
  - unfold text_fit. destruct y as [l|]; [|reflexivity]. destruct X as [x|]; [|now destruct (ts_layout sp)]. destruct (ts_layout sp); try reflexivity;
    match goal with |- context [match ?m with Ok _ => _ | Err _ => _ end] => destruct m as [[t us]|e] end; try reflexivity.
  - unfold image_fit. destruct y as [l|]; [|reflexivity]. destruct X as [x|]; [|reflexivity]. destruct (image_input _ _ x) as [[s t]|e]; [|reflexivity].
    match goal with |- context [match ?m with Ok _ => _ | Err _ => _ end] => destruct m end; reflexivity.
Qed.

(* C145: renaming the labels in order renames the classes and changes nothing else *)
Theorem C145_relabel f sp X l obj g : (forall a b, (a < b)%Z -> (f a < f b)%Z) ->
  let l' := {| l_data := map f (l_data l); l_dev := l_dev l |} in
  forall fit, In fit [logreg; mlp; text; image] -> forall obj' r g', fit sp X (Some l) obj g = (obj', Ok r, g') ->
  exists obj1 classes d, fit sp X (Some l') obj g = (obj1, Ok r, g') /\ tc_classes W obj' = Some (classes, d) /\ tc_classes W obj1 = Some (map f classes, d) /\
    tc_model W obj1 = tc_model W obj' /\ forall X', scores obj1 X' = scores obj' X' /\ text_scores W logits softmax sp obj1 X' = text_scores W logits softmax sp obj' X' /\ image_scores W logits softmax sp obj1 X' = image_scores W logits softmax sp obj' X'.
Proof.
  intros Hf l'. assert (HC : forall t, check_data t l' = check_data t l) by (intros t; unfold check_data, l'; cbn [l_data l_dev]; now rewrite map_length).
  assert (HR : forall ob ob' : tclf W, ob = renamed W f ob' -> (exists classes d, tc_classes W ob' = Some (classes, d)) -> exists classes d, tc_classes W ob' = Some (classes, d) /\ tc_classes W ob = Some (map f classes, d) /\ tc_model W ob = tc_model W ob' /\
    forall X', scores ob X' = scores ob' X' /\ text_scores W logits softmax sp ob X' = text_scores W logits softmax sp ob' X' /\ image_scores W logits softmax sp ob X' = image_scores W logits softmax sp ob' X').
  { intros ob ob' -> (classes & d & H). exists classes, d. split; [exact H|]. unfold renamed at 1. cbn [tc_classes]. rewrite H. split; [reflexivity|]. split; [reflexivity|]. intros X'. unfold flat_scores, text_scores, image_scores, renamed. cbn [tc_model tc_classes tc_width tc_shape tc_kernels]. rewrite H. repeat split. }
  assert (HK : forall sf act sizes t ob obj' r g', fit_core W Op G manual_seed randperm build opt step sp sf act sizes t l ob g = (obj', Ok r, g') -> fit_core W Op G manual_seed randperm build opt step sp sf act sizes t l' ob g = (renamed W f obj', Ok r, g') /\ exists classes d, tc_classes W obj' = Some (classes, d)).
  { intros sf act sizes t ob obj' r g' H. unfold l'. rewrite core_relabel by exact Hf. rewrite H. split; [reflexivity|]. revert H. unfold fit_core. rewrite (surjective_pairing (encode_labels (l_data l))).
    destruct (act && negb (ts_activation_ok sp)); [discriminate|]. destruct (build _ _) as [w0 g0]. destruct (negb (Qle_bool 0 (ts_lr sp) && Qle_bool 0 (ts_decay sp))); [discriminate|]. destruct (train _ _ _ _ _ _ _ _ _ _ _) as [[w o] g1]. intros [= <- _ _]. cbn [tc_classes]. eexists _, _. reflexivity. }
  intros fit [<-|[<-|[<-|[<-|[]]]]] obj' r g' HF.
  - unfold logreg_fit in *. destruct X as [x|]; [|discriminate]. destruct (as_2d x) as [t|e]; cbn [bind] in *; [|discriminate]. rewrite HC. destruct (check_data t l) as [[]|e]; cbn [bind] in *; [|discriminate]. destruct (check_loop sp); cbn [bind] in *; [|discriminate].
    apply HK in HF as (H1 & H2). rewrite H1. destruct (HR _ _ eq_refl H2) as (classes & d & H3). exists (renamed W f obj'), classes, d. split; [reflexivity|exact H3].
  - unfold mlp_fit in *. destruct X as [x|]; [|discriminate]. destruct (as_2d x) as [t|e]; cbn [bind] in *; [|discriminate]. rewrite HC. destruct (check_data t l) as [[]|e]; cbn [bind] in *; [|discriminate]. destruct (check_loop sp); cbn [bind] in *; [|discriminate]. destruct (check_rates sp); cbn [bind] in *; [|discriminate]. destruct (existsb _ _); [discriminate|].
    apply HK in HF as (H1 & H2). rewrite H1. destruct (HR _ _ eq_refl H2) as (classes & d & H3). exists (renamed W f obj'), classes, d. split; [reflexivity|exact H3].
  - unfold text_fit in *. destruct X as [x|]; [|destruct (ts_layout sp); discriminate]. destruct (ts_layout sp) eqn:EL; try discriminate;
      (match goal with |- context [text_input ?a x] => destruct (text_input a x) as [t|e] end; cbn [bind] in *; [|discriminate]; rewrite HC; destruct (check_data t l) as [[]|e]; cbn [bind] in *; [|discriminate];
      destruct (Nat.eqb (length (ts_kernels sp)) 0 || (ts_filters sp <=? 0)%Z)%bool; cbn [bind] in *; [discriminate|]; destruct (check_loop sp); cbn [bind] in *; [|discriminate]; destruct (check_rates sp); cbn [bind] in *; [|discriminate]; destruct (existsb _ _); [discriminate|];
      cbv zeta in *; match goal with |- context [if Nat.eqb ?a 0 then _ else _] => destruct (Nat.eqb a 0) end; [discriminate|];
      match type of HF with context [fit_core ?a ?b ?c ?d ?e ?f0 ?h ?i ?j ?k ?l0 ?m ?n ?o ?p ?q] => destruct (fit_core a b c d e f0 h i j k l0 m n o p q) as [[ob [r0|e0]] g0] eqn:EF end; [|discriminate];
      injection HF as <- <- <-; apply HK in EF as (H1 & classes & d & H2); rewrite H1;
      match goal with |- exists obj1 _ _, (?a, _, _) = _ /\ tc_classes W ?b = _ /\ _ => destruct (HR a b eq_refl) as (classes' & d' & H3); [exists classes, d; exact H2|exists a, classes', d'; split; [reflexivity|exact H3]] end).
  - unfold image_fit in *. destruct X as [x|]; [|discriminate]. destruct (image_input _ _ x) as [[s t]|e]; [|discriminate]. rewrite HC. match type of HF with context [match ?m with Ok _ => _ | Err _ => _ end] => destruct m end; [|discriminate].
    apply HK in HF as (H1 & H2). rewrite H1. destruct (HR _ _ eq_refl H2) as (classes & d & H3). exists (renamed W f obj'), classes, d. split; [reflexivity|exact H3].
Qed.

(* C145: when a fitted flat classifier scores a batch, and what it answers *)
Theorem C145_predict_returns sp X y obj g obj' r g' x' : randperm_ok randperm ->
  (logreg sp X y obj g = (obj', Ok r, g') \/ mlp sp X y obj g = (obj', Ok r, g')) ->
  exists x l, X = Some x /\ y = Some l /\
  ((exists P, scores obj' (Some x') = Ok P) <-> t_shape x' <> [] /\ (length (t_shape x') <= 2 \/ t_n x' <> 0)%nat /\ t_dev x' = l_dev l /\ volume (tl (t_shape x')) = volume (tl (t_shape x))).
Proof.
  intros Hp HF. assert (HX : exists x l w classes, X = Some x /\ y = Some l /\ tc_model W obj' = Some w /\ tc_classes W obj' = Some (classes, l_dev l) /\ tc_width W obj' = volume (tl (t_shape x))).
  { destruct HF as [HF|HF].
    - destruct (logreg_cases W Op G manual_seed randperm build opt step sp X y obj g) as [(e & HE & _)|(x & l & t & HX & HY & _ & HT & HN & _ & HL & HE)]; rewrite HE in HF; [discriminate|].
      apply core_ok in HF as (classes & w0 & g0 & w & o & H1 & H2 & H3 & H4 & H5 & _); [|exact Hp|exact HN|apply HL]. exists x, l, w, classes. subst obj'. destruct (flattened_volume _ _ HT) as (F1 & F2 & F3). now repeat split.
    - destruct (mlp_cases W Op G manual_seed randperm build opt step sp X y obj g) as [(e & HE & _)|(x & l & t & HX & HY & _ & HT & HN & _ & HL & _ & _ & HE)]; rewrite HE in HF; [discriminate|].
      apply core_ok in HF as (classes & w0 & g0 & w & o & H1 & H2 & H3 & H4 & H5 & _); [|exact Hp|exact HN|apply HL]. exists x, l, w, classes. subst obj'. destruct (flattened_volume _ _ HT) as (F1 & F2 & F3). now repeat split. }
  destruct HX as (x & l & w & classes & -> & -> & HM & HC & HW). exists x, l. split; [reflexivity|]. split; [reflexivity|]. unfold flat_scores. rewrite HM, HC, HW.
  destruct (as_2d x') as [t|e] eqn:E; cbn [bind].
  - pose proof (as_2d_ok _ _ E) as HT. destruct (flattened_volume _ _ HT) as (F1 & F2 & F3). destruct HT as (T0 & T1 & T2 & T3). rewrite F3, T3.
    assert (HL : (length (t_shape x') <= 2 \/ t_n x' <> 0)%nat) by (revert E; unfold as_2d, t_n; destruct (t_shape x') as [|n [|a [|b q]]]; cbn [length hd]; [lia|lia|lia|]; destruct (Nat.eqb_spec n 0); [discriminate|right; exact n0]).
    destruct (Z.eqb_spec (t_dev x') (l_dev l)) as [D|D]; cbn [negb]; [|split; [intros (P & H); discriminate H|tauto]].
    destruct (Nat.eqb_spec (volume (tl (t_shape x'))) (volume (tl (t_shape x)))) as [V|V]; cbn [negb]; [|split; [intros (P & H); discriminate H|tauto]]. split; [tauto|intros _; eexists; reflexivity].
  - split; [intros (P & H); discriminate H|]. intros (A & B & _). exfalso. revert E A B. unfold as_2d, t_n. destruct (t_shape x') as [|n [|a [|b q]]]; cbn [length hd]; [congruence|discriminate|discriminate|]. destruct (Nat.eqb_spec n 0); [intros _ _ HB; lia|discriminate].
Qed.
Theorem C145_predict outputs sp X y obj g obj' r g' x' P : randperm_ok randperm -> outputs_ok build step logits outputs -> softmax_ok softmax -> argmax_ok argmax ->
  (logreg sp X y obj g = (obj', Ok r, g') \/ mlp sp X y obj g = (obj', Ok r, g')) -> scores obj' (Some x') = Ok P ->
  exists l classes out, y = Some l /\ labels_of (l_data l) classes /\ predict obj' (Ok P) = Ok out /\ answers classes (t_n x') P out.
Proof.
  intros Hp (O1 & O2 & O3) HS HA HF HP. assert (HX : exists l w classes, y = Some l /\ labels_of (l_data l) classes /\ l_data l <> [] /\ tc_model W obj' = Some w /\ tc_classes W obj' = Some (classes, l_dev l) /\ outputs w = length classes).
  { destruct HF as [HF|HF].
    - destruct (logreg_cases W Op G manual_seed randperm build opt step sp X y obj g) as [(e & HE & _)|(x & l & t & HX & HY & _ & HT & HN & HD & HL & HE)]; rewrite HE in HF; [discriminate|].
      apply core_ok in HF as (classes & w0 & g0 & w & o & H1 & H2 & H3 & H4 & H5 & H6); [|exact Hp|exact HN|apply HL]. exists l, w, classes. subst obj'. repeat split; try assumption; try apply H1; [|exact (H6 outputs O1 O2)].
      intros H0. destruct HD as (x0 & l0 & HX0 & HY0 & D1 & D2 & D3 & _). assert (l0 = l) by congruence. subst l0. rewrite H0 in D2. unfold t_n in D2. destruct (t_shape x0); [congruence|]. cbn in D2. subst n. now apply D3.
    - destruct (mlp_cases W Op G manual_seed randperm build opt step sp X y obj g) as [(e & HE & _)|(x & l & t & HX & HY & _ & HT & HN & HD & HL & _ & _ & HE)]; rewrite HE in HF; [discriminate|].
      apply core_ok in HF as (classes & w0 & g0 & w & o & H1 & H2 & H3 & H4 & H5 & H6); [|exact Hp|exact HN|apply HL]. exists l, w, classes. subst obj'. repeat split; try assumption; try apply H1; [|rewrite (H6 outputs O1 O2); exact (last_last (volume (tl (t_shape x)) :: map Z.to_nat (ts_hidden sp)) _ _)].
      intros H0. destruct HD as (x0 & l0 & HX0 & HY0 & D1 & D2 & D3 & _). assert (l0 = l) by congruence. subst l0. rewrite H0 in D2. unfold t_n in D2. destruct (t_shape x0); [congruence|]. cbn in D2. subst n. now apply D3. }
  destruct HX as (l & w & classes & HY & HLa & HNe & HM & HC & HO). exists l, classes. unfold flat_scores in HP. rewrite HM, HC in HP. destruct (as_2d x') as [t|e] eqn:E; cbn [bind] in HP; [|discriminate].
  destruct (negb (t_dev t =? l_dev l)%Z); [discriminate|]. destruct (negb (Nat.eqb _ _)); [discriminate|]. injection HP as <-. pose proof (flattened_volume _ _ (as_2d_ok _ _ E)) as (F1 & _). rewrite <- F1.
  assert (HNc : classes <> []) by (intros ->; destruct HLa as (_ & HLa); destruct (l_data l) as [|c q]; [congruence|]; destruct (proj2 (HLa c) (or_introl eq_refl))).
  destruct (scores_answers logits softmax argmax w t classes obj' (l_dev l) HS HA HNc) as (out & H1 & H2); [intros s; now rewrite O3|exact HC|]. exists out. split; [exact HY|]. split; [exact HLa|]. split; assumption.
Qed.
(* the rows of an array, as the reads and the scores count them: row i holds the values that follow those of the i rows before it *)
Theorem C145_rows_of_data t i : length (t_data t) = volume (t_shape t) -> (i < t_n t)%nat ->
  length (slice t i) = volume (tl (t_shape t)) /\ forall j, (j < volume (tl (t_shape t)))%nat -> nth j (slice t i) 0%Q = nth (i * volume (tl (t_shape t)) + j)%nat (t_data t) 0%Q.
Proof using Type.
  intros HL HI. clear -HL HI. unfold t_n in HI. destruct (t_shape t) as [|n s] eqn:E; [inversion HI|]. cbn [hd tl volume fold_right] in *. fold (volume s) in *. unfold slice. rewrite E. cbn [tl].
  split; [rewrite firstn_length, skipn_length; nia|]. intros j Hj. rewrite nth_firstn_lt by exact Hj. apply nth_skipn.
Qed.
(* the scores of a row depend on that row alone *)
Theorem C145_rows obj x x' P P' i i' : scores obj (Some x) = Ok P -> scores obj (Some x') = Ok P' -> (i < t_n x)%nat -> (i' < t_n x')%nat -> slice x i = slice x' i' -> nth i P [] = nth i' P' [].
Proof.
  unfold flat_scores. destruct (tc_model W obj) as [w|]; [|discriminate]. destruct (tc_classes W obj) as [[classes d]|]; [|discriminate]. intros H H' Hi Hi' HS.
  assert (HG : forall x P i, (do t <- as_2d x; (if negb (t_dev t =? d)%Z then Err SupervisedError else if negb (Nat.eqb (hd O (tl (t_shape t))) (tc_width W obj)) then Err RuntimeError else Ok (scores_of W logits softmax w t))) = Ok P -> (i < t_n x)%nat -> nth i P [] = softmax (logits w ([tc_width W obj], slice x i))).
  { clear. intros x P i H Hi. destruct (as_2d x) as [t|e] eqn:E; cbn [bind] in H; [|discriminate]. destruct (negb (t_dev t =? d)%Z); [discriminate|]. destruct (Nat.eqb_spec (hd O (tl (t_shape t))) (tc_width W obj)) as [HW|]; cbn [negb] in H; [|discriminate]. injection H as <-.
    pose proof (as_2d_ok _ _ E) as HT. destruct (flattened_volume _ _ HT) as (F1 & F2 & F3). destruct HT as (_ & T1 & T2 & _). unfold scores_of.
    rewrite (nth_indep _ [] ((fun s => softmax (logits w s)) ([], []))) by (rewrite map_length, samples_length; lia). rewrite (map_nth (fun s => softmax (logits w s))). rewrite samples_nth by lia. do 2 f_equal. unfold slice. rewrite T2, T1. cbn [tl]. rewrite <- HW, F3. unfold volume at 2 4. cbn [fold_right]. now rewrite Nat.mul_1_r. }
  rewrite (HG _ _ _ H Hi), (HG _ _ _ H' Hi'). now rewrite HS.
Qed.
(* C145: a fit that raises keeps the network; it changes the classes only for a negative rate or an unknown activation *)
Theorem C145_failed sp X y obj g obj' e g' : (logreg sp X y obj g = (obj', Err e, g') \/ mlp sp X y obj g = (obj', Err e, g')) ->
  tc_model W obj' = tc_model W obj /\ (obj' = obj \/ (ts_lr sp < 0)%Q \/ (ts_decay sp < 0)%Q \/ ts_activation_ok sp = false).
Proof.
  assert (HK : forall sf act sizes t l, fit_core W Op G manual_seed randperm build opt step sp sf act sizes t l obj g = (obj', Err e, g') -> tc_model W obj' = tc_model W obj /\ (obj' = obj \/ (ts_lr sp < 0)%Q \/ (ts_decay sp < 0)%Q \/ ts_activation_ok sp = false)).
  { intros sf act sizes t l H. split; [now rewrite (core_err _ _ _ _ _ _ _ _ _ _ _ _ _ _ _ _ _ _ _ H)|]. right.
    destruct (ts_activation_ok sp) eqn:EA; [|tauto]. destruct (Qlt_le_dec (ts_lr sp) 0) as [|A]; [tauto|]. destruct (Qlt_le_dec (ts_decay sp) 0) as [|B]; [tauto|]. exfalso.
    destruct (proj2 (core_returns W Op G manual_seed randperm build opt step sp sf act sizes t l obj g)) as (o1 & r1 & g1 & H1); [rewrite EA; repeat split; assumption|]. congruence. }
  intros [H|H].
  - destruct (logreg_cases W Op G manual_seed randperm build opt step sp X y obj g) as [(e0 & HE & _)|(x & l & t & _ & _ & _ & _ & _ & _ & _ & HE)]; rewrite HE in H; [injection H as <- _ _; split; [reflexivity|now left]|exact (HK _ _ _ _ _ H)].
  - destruct (mlp_cases W Op G manual_seed randperm build opt step sp X y obj g) as [(e0 & HE & _)|(x & l & t & _ & _ & _ & _ & _ & _ & _ & _ & _ & HE)]; rewrite HE in H; [injection H as <- _ _; split; [reflexivity|now left]|exact (HK _ _ _ _ _ H)].
Qed.

(* C146: the text network *)
Theorem C146_text_returns sp X y obj g :
  (exists obj' r g', text sp X y obj g = (obj', Ok r, g')) <-> text_needs sp X y /\ ts_activation_ok sp = true /\ (0 <= ts_decay sp)%Q.
Proof.
  destruct (text_cases W Op G manual_seed randperm build opt step sp X y obj g) as [(e & HE & HN)|(x & l & t & us & _ & _ & _ & _ & HD & _ & HE)]; rewrite HE; clear HE.
  - split; [intros (? & ? & ? & H); discriminate H|tauto].
  - pose proof (core_returns W Op G manual_seed randperm build opt step sp true true (fun k => hd O (tl (t_shape t)) :: map Z.to_nat us ++ [k]) t l obj g) as HC.
    destruct (fit_core _ _ _ _ _ _ _ _ _ _ _ _ _ _ _ _) as [[o1 [r1|e1]] g1]; split.
    + intros _. destruct (proj1 HC) as (A & _ & B); [now eexists _, _, _|]. split; [exact HD|]. split; [now apply A|exact B].
    + intros _. eexists _, _, _. reflexivity.
    + intros (? & ? & ? & H). discriminate H.
    + intros (A & B & C). destruct (proj2 HC) as (? & ? & ? & H); [|discriminate H]. split; [now intros _|]. split; [destruct A as (_ & _ & (A & _) & _); lra|exact C].
Qed.
Theorem C146_text_training sp X y obj g obj' r g' s : randperm_ok randperm -> seed_is sp s -> text sp X y obj g = (obj', Ok r, g') ->
  exists x l t usable classes w0 g0 w o, X = Some x /\ y = Some l /\ sequences (ts_layout sp) x t /\
    usable = filter (fun k => (k <=? Z.of_nat (nth 2 (t_shape t) O))%Z) (ts_kernels sp) /\ labels_of (l_data l) classes /\
    build (nth 1 (t_shape t) O :: map Z.to_nat usable ++ [length classes]) (manual_seed s) = (w0, g0) /\
    trained randperm step (Z.to_nat (ts_batch sp)) t (l_data l) classes (Z.to_nat (ts_epochs sp)) (w0, opt w0, g0) (w, o, g') /\
    tc_model W obj' = Some w /\ tc_classes W obj' = Some (classes, l_dev l) /\ tc_kernels W obj' = Some usable.
Proof.
  intros Hp HS HF. apply seed_is_of in HS. destruct (text_cases W Op G manual_seed randperm build opt step sp X y obj g) as [(e & HE & _)|(x & l & t & us & HX & HY & HT & HN & HD & HU & HE)]; rewrite HE in HF; clear HE; [discriminate|].
  match type of HF with context [fit_core ?a ?b ?c ?d ?e ?f0 ?h ?i ?j ?k ?l0 ?m ?n ?o ?p ?q] => destruct (fit_core a b c d e f0 h i j k l0 m n o p q) as [[ob [r0|e0]] g0] eqn:EF end; [|discriminate]. injection HF as <- <- <-.
  apply core_ok in EF as (classes & w0 & g1 & w & o & H1 & H2 & H3 & H4 & H5 & _); [|exact Hp|exact HN|exact (proj1 (proj1 (proj2 HD)))]. cbv iota in H2, H3. rewrite HS in H2. exists x, l, t, us, classes, w0, g1, w, o. subst ob. cbn [tc_model tc_classes tc_kernels].
  replace (nth 1 (t_shape t) O) with (hd O (tl (t_shape t))) by (destruct (t_shape t) as [|? [|? ?]]; reflexivity). apply text_input_ok in HT. do 9 (split; [assumption || reflexivity|]). reflexivity.
Qed.
(* sequences shorter than a kernel in use are refused, shorter training sequences drop the larger kernels *)
Theorem C146_text_predict_returns sp X y obj g obj' r g' x' : randperm_ok randperm -> text sp X y obj g = (obj', Ok r, g') ->
  exists x l t usable, X = Some x /\ y = Some l /\ sequences (ts_layout sp) x t /\ tc_kernels W obj' = Some usable /\
  ((exists P, text_scores W logits softmax sp obj' (Some x') = Ok P) <->
   exists t', sequences (ts_layout sp) x' t' /\ t_dev x' = l_dev l /\ nth 1 (t_shape t') O = nth 1 (t_shape t) O /\ forall k, In k usable -> (k <= Z.of_nat (nth 2 (t_shape t') O))%Z).
Proof.
  intros Hp HF. destruct (text_cases W Op G manual_seed randperm build opt step sp X y obj g) as [(e & HE & _)|(x & l & t & us & HX & HY & HT & HN & HD & HU & HE)]; rewrite HE in HF; clear HE; [discriminate|].
  match type of HF with context [fit_core ?a ?b ?c ?d ?e ?f0 ?h ?i ?j ?k ?l0 ?m ?n ?o ?p ?q] => destruct (fit_core a b c d e f0 h i j k l0 m n o p q) as [[ob [r0|e0]] g0] eqn:EF end; [|discriminate]. injection HF as <- <- <-.
  apply core_ok in EF as (classes & w0 & g1 & w & o & H1 & H2 & H3 & H4 & H5 & _); [|exact Hp|exact HN|exact (proj1 (proj1 (proj2 HD)))]. subst ob. exists x, l, t, us. split; [exact HX|]. split; [exact HY|]. split; [now apply text_input_ok|]. split; [reflexivity|].
  unfold text_scores. cbn [tc_model tc_classes tc_kernels tc_width].
  assert (HL : ts_layout sp <> OtherLayout) by (destruct HD as ((x0 & l0 & t0 & k0 & _ & _ & H & _) & _); exact H).
  assert (H1n : forall s : list nat, nth 1 s O = hd O (tl s)) by (intros [|? [|? ?]]; reflexivity).
  assert (HM : forall ks m, (0 <= m)%Z -> (m <? fold_right Z.max 0 ks)%Z = false <-> forall k, In k ks -> (k <= m)%Z).
  { intros ks m Hm. rewrite Z.ltb_ge. induction ks as [|k ks IH]; cbn [fold_right In]; [split; [intros _ k []|intros _; exact Hm]|]. split.
    - intros H q [<-|Hq]; [lia|]. apply IH; [lia|exact Hq].
    - intros H. apply Z.max_lub; [apply H; now left|]. apply IH. intros q Hq. apply H. now right. }
  destruct (text_input (ts_layout sp) x') as [t'|e] eqn:E; cbn [bind].
  - pose proof (text_input_ok _ _ _ E) as HT'. assert (HSh : forall t2, sequences (ts_layout sp) x' t2 -> t_shape t' = t_shape t2) by (intros t2 H; destruct (sequences_returns _ _ _ HL H) as (t3 & H7 & H8); rewrite E in H7; injection H7 as <-; exact H8).
    destruct HT' as (HDv & HT'). rewrite HDv. destruct (Z.eqb_spec (t_dev x') (l_dev l)) as [D|D]; cbn [negb]; [|split; [intros (P & H); discriminate H|intros (t2 & _ & H & _); congruence]].
    destruct (Z.of_nat (nth 2 (t_shape t') O) <? fold_right Z.max 0 us)%Z eqn:EK.
    { split; [intros (P & H); discriminate H|]. intros (t2 & HS2 & _ & _ & H). rewrite <- (HSh t2 HS2) in H. apply (proj2 (HM us _ (Nat2Z.is_nonneg _))) in H. congruence. }
    pose proof (proj1 (HM us _ (Nat2Z.is_nonneg _)) EK) as EK'. destruct (Nat.eqb_spec (hd O (tl (t_shape t'))) (hd O (tl (t_shape t)))) as [V|V]; cbn [negb].
    + split; [|intros _; eexists; reflexivity]. intros _. exists t'. split; [split; assumption|]. split; [exact D|]. rewrite !H1n. now split.
    + split; [intros (P & H); discriminate H|]. intros (t2 & HS2 & _ & H & _). rewrite <- (HSh t2 HS2), !H1n in H. congruence.
  - split; [intros (P & H); discriminate H|]. intros (t2 & H & _). destruct (sequences_returns _ _ _ HL H) as (t3 & H7 & _). congruence.
Qed.

(* C146: the image network *)
Theorem C146_image_returns sp X y obj g :
  (exists obj' r g', image sp X y obj g = (obj', Ok r, g')) <->
  (exists x l t p, X = Some x /\ y = Some l /\ images (tc_shape W obj) (ts_input_shape sp) x t p /\ image_needs sp t l) /\ ts_activation_ok sp = true /\ (0 <= ts_decay sp)%Q.
Proof.
  destruct (image_cases W Op G manual_seed randperm build opt step sp X y obj g) as [(e & HE & HN)|(x & l & p & t & HX & HY & HI & [(e & HE & HN)|(HN & HE)])]; rewrite HE; clear HE.
  - split; [intros (? & ? & ? & H); discriminate H|]. intros ((x & l & t & p & A & B & C & _) & _). exfalso. apply HN. exists x, l, p, t. apply image_input_ok in C. now repeat split.
  - split; [intros (? & ? & ? & H); discriminate H|]. intros ((x0 & l0 & t0 & p0 & A & B & C & D) & _). exfalso. apply HN. apply image_input_ok in C. rewrite HX in A. injection A as <-. rewrite HY in B. injection B as <-. rewrite HI in C. injection C as _ <-. exact D.
  - rewrite core_returns. split.
    + intros (A & _ & B). split; [|split; [now apply A|exact B]]. exists x, l, t, p. apply image_input_ok in HI. now split; [|split; [|split]].
    + intros (_ & A & B). split; [now intros _|]. split; [destruct HN as (_ & _ & _ & _ & (HN & _) & _); lra|exact B].
Qed.
Theorem C146_image_training sp X y obj g obj' r g' s : randperm_ok randperm -> seed_is sp s -> image sp X y obj g = (obj', Ok r, g') ->
  exists x l t c h w classes w0 g0 v o, X = Some x /\ y = Some l /\ images (tc_shape W obj) (ts_input_shape sp) x t (c, h, w) /\ labels_of (l_data l) classes /\
    build (c :: map Z.to_nat (ts_conv sp) ++ [length classes]) (manual_seed s) = (w0, g0) /\
    trained randperm step (Z.to_nat (ts_batch sp)) t (l_data l) classes (Z.to_nat (ts_epochs sp)) (w0, opt w0, g0) (v, o, g') /\
    tc_model W obj' = Some v /\ tc_classes W obj' = Some (classes, l_dev l) /\ tc_shape W obj' = Some (c, h, w) /\
    r = {| fr_samples := t_n x; fr_features := c * h * w; fr_classes := length classes |}.
Proof.
  intros Hp HS HF. apply seed_is_of in HS. destruct (image_cases W Op G manual_seed randperm build opt step sp X y obj g) as [(e & HE & _)|(x & l & p & t & HX & HY & HI & [(e & HE & HN)|(HN & HE)])]; rewrite HE in HF; clear HE; [discriminate|discriminate|].
  destruct p as [[c h] w]. apply core_ok in HF as (classes & w0 & g1 & v & o & H1 & H2 & H3 & H4 & H5 & _); [|exact Hp|exact (proj1 HN)|exact (proj1 (proj1 (proj2 (proj2 (proj2 HN)))))]. cbv iota in H2, H3. rewrite HS in H2. exists x, l, t, c, h, w, classes, w0, g1, v, o. subst obj' r.
  apply image_input_ok in HI. destruct (images_shape _ _ _ _ _ HI) as (F1 & _). rewrite F1. replace (volume (tl (t_shape t))) with (c * h * w)%nat by (destruct HI as (_ & _ & HI & _); rewrite HI; cbn [tl volume fold_right]; lia). do 9 (split; [assumption || reflexivity|]). reflexivity.
Qed.
(* a fitted network takes images of the fitted shape on the device of the training labels, and no others *)
Theorem C146_image_predict_returns sp X y obj g obj' r g' x' : randperm_ok randperm -> image sp X y obj g = (obj', Ok r, g') ->
  exists l p, y = Some l /\ tc_shape W obj' = Some p /\
  ((exists P, image_scores W logits softmax sp obj' (Some x') = Ok P) <-> exists t', images (Some p) None x' t' p /\ t_dev x' = l_dev l).
Proof.
  intros Hp HF. destruct (image_cases W Op G manual_seed randperm build opt step sp X y obj g) as [(e & HE & _)|(x & l & p & t & HX & HY & HI & [(e & HE & HN)|(HN & HE)])]; rewrite HE in HF; clear HE; [discriminate|discriminate|].
  apply core_ok in HF as (classes & w0 & g1 & v & o & H1 & H2 & H3 & H4 & H5 & _); [|exact Hp|exact (proj1 HN)|exact (proj1 (proj1 (proj2 (proj2 (proj2 HN)))))]. subst obj'. exists l, p. split; [exact HY|]. split; [reflexivity|]. unfold image_scores, with_shape. cbn [tc_model tc_classes tc_shape].
  assert (HIm : forall q t', images (Some p) (ts_input_shape sp) x' t' q <-> images (Some p) None x' t' q).
  { intros [[c h] w] t'. unfold images. split; intros (A & B & C & D); (split; [exact A|]; split; [exact B|]; split; [exact C|]; destruct D as [D|[D|(D & [E|(E & _)])]]; [now left|right; now left|right; right; split; [exact D|now left]|discriminate]). }
  destruct (image_input (Some p) (ts_input_shape sp) x') as [[q t']|e] eqn:E; cbn [bind].
  - apply image_input_ok in E. assert (HDv : t_dev t' = t_dev x') by (destruct q as [[? ?] ?]; apply E). destruct p as [[c h] w], q as [[c' h'] w'].
    destruct (Nat.eqb_spec c c') as [<-|Hc]; [|split; [intros (P & H); discriminate H|]; intros (t2 & H & _); exfalso; apply HIm, image_input_ok in H; apply image_input_ok in E; congruence].
    destruct (Nat.eqb_spec h h') as [<-|Hh]; [|split; [intros (P & H); discriminate H|]; intros (t2 & H & _); exfalso; apply HIm, image_input_ok in H; apply image_input_ok in E; congruence].
    destruct (Nat.eqb_spec w w') as [<-|Hw]; [|split; [intros (P & H); discriminate H|]; intros (t2 & H & _); exfalso; apply HIm, image_input_ok in H; apply image_input_ok in E; congruence].
    cbn [andb negb]. rewrite HDv. destruct (Z.eqb_spec (t_dev x') (l_dev l)) as [D|D]; cbn [negb]; [|split; [intros (P & H); discriminate H|intros (t2 & _ & H); congruence]].
    split; [intros _; exists t'; split; [now apply HIm|exact D]|intros _; eexists; reflexivity].
  - split; [intros (P & H); discriminate H|]. intros (t2 & H & _). apply HIm, image_input_ok in H. congruence.
Qed.
(* C146: scores and answers of both networks *)
Theorem C146_predict outputs sp X y obj g obj' r g' x' P : randperm_ok randperm -> outputs_ok build step logits outputs -> softmax_ok softmax -> argmax_ok argmax ->
  (text sp X y obj g = (obj', Ok r, g') /\ text_scores W logits softmax sp obj' (Some x') = Ok P) \/ (image sp X y obj g = (obj', Ok r, g') /\ image_scores W logits softmax sp obj' (Some x') = Ok P) ->
  exists l classes out, y = Some l /\ labels_of (l_data l) classes /\ predict obj' (Ok P) = Ok out /\ answers classes (t_n x') P out.
Proof.
  intros Hp (O1 & O2 & O3) HS HA HF.
  assert (HC0 : forall l classes, labels_of (l_data l) classes -> l_data l <> [] -> classes <> []) by (intros l classes (_ & HLa) HNe ->; destruct (l_data l) as [|c q]; [congruence|]; destruct (proj2 (HLa c) (or_introl eq_refl))).
  destruct HF as [(HF & HP)|(HF & HP)].
  - destruct (text_cases W Op G manual_seed randperm build opt step sp X y obj g) as [(e & HE & _)|(x & l & t & us & HX & HY & HT & HN & HD & HU & HE)]; rewrite HE in HF; clear HE; [discriminate|].
    match type of HF with context [fit_core ?a ?b ?c ?d ?e ?f0 ?h ?i ?j ?k ?l0 ?m ?n ?o ?p ?q] => destruct (fit_core a b c d e f0 h i j k l0 m n o p q) as [[ob [r0|e0]] g0] eqn:EF end; [|discriminate]. injection HF as <- <- <-.
    apply core_ok in EF as (classes & w0 & g1 & w & o & H1 & H2 & H3 & H4 & H5 & H6); [|exact Hp|exact HN|exact (proj1 (proj1 (proj2 HD)))]. subst ob. exists l, classes. unfold text_scores in HP. cbn [tc_model tc_classes tc_kernels tc_width] in HP.
    destruct (text_input (ts_layout sp) x') as [t'|e] eqn:E; cbn [bind] in HP; [|discriminate]. destruct (negb (t_dev t' =? l_dev l)%Z); [discriminate|]. destruct (_ <? _)%Z; [discriminate|]. destruct (negb (Nat.eqb _ _)); [discriminate|]. injection HP as <-.
    apply text_input_ok in E. destruct (sequences_shape _ _ _ E) as (F1 & _). rewrite <- F1. assert (HNe : l_data l <> []).
    { intros H0. destruct HD as ((x0 & l0 & t0 & k0 & D1 & D2 & _ & D4 & D5 & D6 & _) & _). rewrite HY in D2. injection D2 as <-. rewrite H0 in D5. unfold t_n in D5. destruct (t_shape x0) as [|n q] eqn:Ex; [|cbn in D5; subst n; now apply D6].
      destruct D4 as (_ & [(? & ? & D4 & _)|[(? & ? & ? & _ & D4 & _)|(? & ? & ? & _ & D4 & _)]]); congruence. }
    match goal with |- context [predict_of W argmax ?ob _] => destruct (scores_answers logits softmax argmax w t' classes ob (l_dev l) HS HA (HC0 _ _ H1 HNe)) as (out & A1 & A2) end; [intros s; rewrite O3, (H6 outputs O1 O2); exact (last_last (hd O (tl (t_shape t)) :: map Z.to_nat us) _ _)|reflexivity|].
    exists out. split; [exact HY|]. split; [exact H1|]. split; assumption.
  - destruct (image_cases W Op G manual_seed randperm build opt step sp X y obj g) as [(e & HE & _)|(x & l & p & t & HX & HY & HI & [(e & HE & HN)|(HN & HE)])]; rewrite HE in HF; clear HE; [discriminate|discriminate|].
    apply core_ok in HF as (classes & w0 & g1 & w & o & H1 & H2 & H3 & H4 & H5 & H6); [|exact Hp|exact (proj1 HN)|exact (proj1 (proj1 (proj2 (proj2 (proj2 HN)))))]. subst obj'. exists l, classes. unfold image_scores in HP. cbn [tc_model tc_classes tc_shape with_shape] in HP.
    destruct (image_input (Some p) (ts_input_shape sp) x') as [[q t']|e] eqn:E; cbn [bind] in HP; [|discriminate]. match type of HP with (if ?b then _ else _) = _ => destruct b end; [discriminate|]. destruct (negb (t_dev t' =? l_dev l)%Z); [discriminate|]. injection HP as <-.
    apply image_input_ok in E. destruct (images_shape _ _ _ _ _ E) as (F1 & _). rewrite <- F1. assert (HNe : l_data l <> []).
    { intros H0. destruct HN as (N1 & N2 & _). rewrite H0 in N1. apply image_input_ok in HI. destruct p as [[c h] w']. destruct HI as (_ & _ & HI & _). unfold t_n in N1. rewrite HI in N1, N2. cbn [hd List.length] in N1. rewrite N1 in N2. now apply N2. }
    match goal with |- context [predict_of W argmax ?ob _] => destruct (scores_answers logits softmax argmax w t' classes ob (l_dev l) HS HA (HC0 _ _ H1 HNe)) as (out & A1 & A2) end; [intros s; rewrite O3, (H6 outputs O1 O2); exact (last_last (fst (fst p) :: map Z.to_nat (ts_conv sp)) _ _)|reflexivity|].
    exists out. split; [exact HY|]. split; [exact H1|]. split; assumption.
Qed.
End Classifiers.

(* ---- instances: a network remembers its number of outputs and a number drawn at its creation *)
Definition tx_W := (nat * Z)%type.
Definition tx_randperm (g : Z) (n : nat) : list nat * Z := (rev (seq 0 n), (g + 1)%Z).
Definition tx_build (s : list nat) (g : Z) : tx_W * Z := ((last s O, g), (g + 1)%Z).
Definition tx_step (b : list (sample * nat)) (w : tx_W) (o : unit) (g : Z) : tx_W * unit * Z := (w, o, (g + 1)%Z).
Definition tx_logits (w : tx_W) (s : sample) : list Q := map (fun j => if Nat.eqb j 0 then inject_Z (snd w) else inject_Z (Z.of_nat j)) (seq 0 (fst w)).
Definition tx_obj : tclf tx_W := {| tc_model := None; tc_width := 0; tc_classes := None; tc_shape := None; tc_kernels := None |}.
Definition tx_spec (decay : Q) (shape : option (list Z)) : tclf_spec :=
  {| ts_batch := 2; ts_epochs := 3; ts_lr := 1 # 100; ts_dropout := 1 # 5; ts_decay := decay; ts_seed := Some 7%Z; ts_activation_ok := true; ts_hidden := [4%Z]; ts_kernels := [2%Z; 5%Z]; ts_filters := 3; ts_layout := ChannelsLast; ts_conv := [2%Z]; ts_kernel := 3; ts_fc := 4; ts_input_shape := shape |}.
Definition tx_logreg := logreg_fit tx_W unit Z (fun s => s) tx_randperm tx_build (fun _ => tt) tx_step.
Definition tx_mlp := mlp_fit tx_W unit Z (fun s => s) tx_randperm tx_build (fun _ => tt) tx_step.
Definition tx_text := text_fit tx_W unit Z (fun s => s) tx_randperm tx_build (fun _ => tt) tx_step.
Definition tx_image := image_fit tx_W unit Z (fun s => s) tx_randperm tx_build (fun _ => tt) tx_step.
Definition tx_scores := flat_scores tx_W tx_logits ex_softmax.
Definition tx_image_scores := image_scores tx_W tx_logits ex_softmax.
Definition tx_predict := predict_of tx_W ex_argmax_nat.
Definition tx_X (s : list nat) : tensor := {| t_shape := s; t_data := map (fun i => inject_Z (Z.of_nat i)) (seq 0 (volume s)); t_dev := 0 |}.
Definition tx_y (l : list Z) : labels := {| l_data := l; l_dev := 0 |}.

(* C145 refuted for the logistic regression: with the same seed and data the network depends on the state of the global generator *)
Theorem C145_logreg_seed_refuted : exists sp X y g g' obj1 r1 h1 obj2 r2 h2 out1 out2,
  tx_logreg sp X y tx_obj g = (obj1, Ok r1, h1) /\ tx_logreg sp X y tx_obj g' = (obj2, Ok r2, h2) /\ tc_model _ obj1 <> tc_model _ obj2 /\
  tx_predict obj1 (tx_scores obj1 X) = Ok out1 /\ tx_predict obj2 (tx_scores obj2 X) = Ok out2 /\ out1 <> out2.
Proof.
  exists (tx_spec 0 None), (Some (tx_X [3; 2]%nat)), (Some (tx_y [5; 9; 5]%Z)), 0%Z, 8%Z. eexists _, _, _, _, _, _, _, _. split; [vm_compute; reflexivity|]. split; [vm_compute; reflexivity|]. split; [vm_compute; discriminate|].
  split; [vm_compute; reflexivity|]. split; [vm_compute; reflexivity|]. discriminate.
Qed.
(* C145 refuted: after a refit that raises, the old network answers with labels it was never trained on *)
Theorem C145_failed_refuted : exists sp sp' X y y' obj r g obj' e g' out,
  tx_mlp sp X (Some y) tx_obj 0%Z = (obj, Ok r, g) /\ tx_mlp sp' X (Some y') obj g = (obj', Err e, g') /\ tc_model _ obj' = tc_model _ obj /\
  tx_predict obj' (tx_scores obj' X) = Ok out /\ forall c, In c out -> ~ In c (l_data y).
Proof.
  exists (tx_spec 0 None), (tx_spec (-1) None), (Some (tx_X [3; 2]%nat)), (tx_y [5; 9; 5]%Z), (tx_y [1; 2; 2]%Z). eexists _, _, _, _, _, _, _. split; [vm_compute; reflexivity|]. split; [vm_compute; reflexivity|]. split; [vm_compute; reflexivity|].
  split; [vm_compute; reflexivity|]. cbn. intros c. lia.
Qed.
(* C146 refuted: a refit that raises makes the network refuse the data it was trained on *)
Theorem C146_refit_refuted : exists sp X X' y y' obj r g obj' e g',
  tx_image sp X y tx_obj 0%Z = (obj, Ok r, g) /\ (exists P, tx_image_scores sp obj X = Ok P) /\
  tx_image sp X' y' obj g = (obj', Err e, g') /\ tc_model _ obj' = tc_model _ obj /\ tx_image_scores sp obj' X = Err SupervisedError.
Proof.
  exists (tx_spec 0 None), (Some (tx_X [2; 1; 4; 4]%nat)), (Some (tx_X [3; 1; 5; 5]%nat)), (Some (tx_y [5; 9]%Z)), (Some (tx_y [5; 9]%Z)). eexists _, _, _, _, _, _. split; [vm_compute; reflexivity|]. split; [eexists; vm_compute; reflexivity|].
  split; [vm_compute; reflexivity|]. split; reflexivity.
Qed.
(* C146 refuted: flat features are read with the shape of an earlier fit, not with the configured input_shape *)
Theorem C146_stale_shape_refuted : exists sp X X' y obj r g obj' r' g' t p,
  tx_image sp (Some X) y tx_obj 0%Z = (obj, Ok r, g) /\ tx_image sp (Some X') y obj g = (obj', Ok r', g') /\
  images None (ts_input_shape sp) X' t p /\ tc_shape _ obj' <> Some p.
Proof.
  exists (tx_spec 0 (Some [2; 8]%Z)), (tx_X [2; 1; 4; 4]%nat), (tx_X [2; 16]%nat), (Some (tx_y [5; 9]%Z)). eexists _, _, _, _, _, _, (reshaped [2; 1; 2; 8]%nat (tx_X [2; 16]%nat)), (1, 2, 8)%nat. split; [vm_compute; reflexivity|]. split; [vm_compute; reflexivity|].
  split; [|discriminate]. repeat split. right. right. split; [reflexivity|]. right. split; [reflexivity|]. repeat split; [lia|lia|lia|]. right. now split.
Qed.

(* the hypotheses are met: contracts and fits of the four classifiers *)
Example C145_hypotheses : randperm_ok tx_randperm /\ outputs_ok tx_build tx_step tx_logits fst /\ softmax_ok ex_softmax /\ argmax_ok ex_argmax_nat /\ seed_is (tx_spec 0 None) 7 /\
  (exists obj r g, tx_logreg (tx_spec 0 None) (Some (tx_X [3; 2]%nat)) (Some (tx_y [5; 9; 5]%Z)) tx_obj 0%Z = (obj, Ok r, g) /\ exists P, tx_scores obj (Some (tx_X [2; 2]%nat)) = Ok P) /\
  (exists obj r g, tx_mlp (tx_spec 0 None) (Some (tx_X [3; 2; 2]%nat)) (Some (tx_y [5; 9; 5]%Z)) tx_obj 0%Z = (obj, Ok r, g)) /\
  (exists obj e g, tx_mlp (tx_spec (-1) None) (Some (tx_X [3; 2]%nat)) (Some (tx_y [5; 9; 5]%Z)) tx_obj 0%Z = (obj, Err e, g)).
Proof.
  split; [intros g n; cbn [tx_randperm fst]; symmetry; apply Permutation_rev|]. split; [split; [reflexivity|]; split; [reflexivity|]; intros w s; unfold tx_logits; now rewrite map_length, seq_length|]. split; [exact ex_softmax_ok|].
  split; [intros p Hp; destruct (ex_argmax_ok p Hp) as (H1 & H2); unfold ex_argmax, lenZ in *; rewrite Nat2Z.id in H2; split; [lia|]; intros x Hx; apply In_nth with (d := 0%Q) in Hx as (j & Hj & <-); now apply H2|].
  split; [now left|]. split; [eexists _, _, _; split; [vm_compute; reflexivity|]; eexists; vm_compute; reflexivity|]. split; eexists _, _, _; vm_compute; reflexivity.
Qed.
Example C146_hypotheses :
  (exists obj r g, tx_text (tx_spec 0 None) (Some (tx_X [2; 3; 2]%nat)) (Some (tx_y [5; 9]%Z)) tx_obj 0%Z = (obj, Ok r, g) /\ tc_kernels _ obj = Some [2%Z] /\ exists P, text_scores tx_W tx_logits ex_softmax (tx_spec 0 None) obj (Some (tx_X [1; 4; 2]%nat)) = Ok P) /\
  (exists obj r g, tx_image (tx_spec 0 None) (Some (tx_X [2; 3; 3]%nat)) (Some (tx_y [5; 9]%Z)) tx_obj 0%Z = (obj, Ok r, g) /\ exists P, tx_image_scores (tx_spec 0 None) obj (Some (tx_X [4; 9]%nat)) = Ok P).
Proof. split; eexists _, _, _; (split; [vm_compute; reflexivity|]); [split; [reflexivity|]|]; eexists; vm_compute; reflexivity. Qed.

Print Assumptions C145_logreg_returns.
Print Assumptions C145_mlp_returns.
Print Assumptions C145_mlp_training.
Print Assumptions C145_logreg_training.
Print Assumptions C145_seed.
Print Assumptions C145_relabel.
Print Assumptions C145_predict_returns.
Print Assumptions C145_predict.
Print Assumptions C145_rows.
Print Assumptions C145_rows_of_data.
Print Assumptions C145_failed.
Print Assumptions C145_logreg_seed_refuted.
Print Assumptions C145_failed_refuted.
Print Assumptions C146_text_returns.
Print Assumptions C146_text_training.
Print Assumptions C146_text_predict_returns.
Print Assumptions C146_image_returns.
Print Assumptions C146_image_training.
Print Assumptions C146_image_predict_returns.
Print Assumptions C146_predict.
Print Assumptions C146_refit_refuted.
Print Assumptions C146_stale_shape_refuted.
Print Assumptions C145_hypotheses.
Print Assumptions C146_hypotheses.
