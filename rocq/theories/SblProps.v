(* C153: the supervised baseline. *)
From Coq Require Import String QArith Lqa Lia.
From Verif Require Import Prelude AdaptModel AdaptSpec AdaptProofs AdaptTorchProofs AdaptProps SblModel SblSpec SblProofs.
Local Open Scope string_scope.
Local Open Scope Z_scope.
Local Open Scope list_scope.
Local Notation length := List.length.

Section Baseline.
Variables P C : Type.
Variable available : string -> bool.
Variable np_device : option device.
Variable as_long : nat -> nat.
Variable as_tensor : val -> device -> result val.
Variable create : spec P -> Z -> result C.
Variable train : C -> val -> val -> result C.
Variable scores_of proba_of : C -> option (val -> result scored).
Variable predict_of : C -> option (val -> result (list nat * list Z)).
Variable classes_of : C -> option (list Z).
Notation fit := (fit P C available np_device as_long as_tensor create train).
Notation life := (life P C available np_device as_long as_tensor create train).
Notation fits := (fits available np_device as_long as_tensor create train).
Notation serves := (serves available np_device as_long as_tensor create train).
Notation never := (never available np_device as_long as_tensor create train).
Notation predict := (predict C predict_of).
Notation predict_proba := (predict_proba C scores_of proba_of predict_of classes_of).
Notation gives := (gives scores_of proba_of predict_of classes_of).

(* C153: fit returns exactly on data in order; the object then holds a fresh classifier trained once on the labelled data *)
Theorem C153_fit sp o o' d dev seed : fit sp o d dev seed = (o', Ok tt) <->
  exists c b, fits sp d dev seed c b /\ o_clf o' = Some c /\ o_backend o' = Some b.
Proof using Type.
  unfold SblModel.fit. destruct (fitted P C available np_device as_long as_tensor create train sp d dev seed) as [[c b]|e] eqn:E.
  - split.
    + intros [= <-]. exists c, b. split; [now apply fitted_iff|]. split; reflexivity.
    + intros (c' & b' & HF & H1 & H2). apply fitted_iff in HF. rewrite E in HF. injection HF as <- <-. destruct o' as [x y]. cbn [o_clf o_backend] in *. now subst.
  - split; [discriminate|]. intros (c' & b' & HF & _). apply fitted_iff in HF. congruence.
Qed.
(* C153: a fit that raises leaves the object as it was *)
Theorem C153_failed_fit sp o o' d dev seed e : fit sp o d dev seed = (o', Err e) -> o' = o.
Proof using Type. unfold SblModel.fit. destruct (fitted _ _ _ _ _ _ _ _ sp d dev seed) as [[c b]|e']; [discriminate|]. now intros [= <- _]. Qed.
(* C153: on array data without torch classifiers, on the CPU, the only errors of fit are refusals, unless the classifier raises or a
   field is nothing numpy makes an array of *)
Theorem C153_numpy_errors sp d dev seed e o s : array (d_xl d) s -> snd (fit sp o (Some d) dev seed) = Err e ->
  e = InductiveValidationError \/ (e = ValueError /\ exists v, In v [d_xl d; d_yl d; d_xu d; d_xw d; d_xs d] /\ hopeless v) \/
  create sp seed = Err e \/ exists c0, create sp seed = Ok c0 /\ train c0 (d_xl d) (d_yl d) = Err e.
Proof using Type.
  intros (i & dt & HX) H. unfold SblModel.fit, SblModel.fitted in H. rewrite HX in H at 1. cbn [detect_backend bind] in H. unfold ensure_classifier_backend in H. cbn [String.eqb Ascii.eqb Bool.eqb] in H.
  destruct (String.eqb (sp_backend sp) "torch"); cbn [bind snd] in H; [injection H as <-; now left|]. unfold ensure_cpu_device in H. destruct (_ || _); cbn [bind snd] in H; [|injection H as <-; now left].
  destruct (to_numpy_dataset (Some d)) as [ds|e1] eqn:ED; cbn [bind snd] in H.
  - apply C148_numpy in ED as ([= <-] & _). rewrite HX in H at 1. cbn [np_shape bind] in H. destruct (Nat.eqb (nth 0 s 0%nat) 0); cbn [snd] in H; [injection H as <-; now left|].
    destruct (ensure_1d_labels (d_yl d)) as [[]|e2] eqn:EL; cbn [bind snd] in H.
    + destruct (create sp seed) as [c0|e3] eqn:EC; cbn [bind snd] in H; [|injection H as <-; tauto]. destruct (train c0 (d_xl d) (d_yl d)) as [c1|e4] eqn:ET; cbn [bind snd] in H; [discriminate|]. injection H as <-. right. right. right. now exists c0.
    + injection H as <-. left. unfold ensure_1d_labels, check_labels in EL. destruct (d_yl d) as [|j sy dy| | |]; try (now injection EL as <-). destruct (negb _); [now injection EL as <-|]. destruct (Nat.eqb _ _); [now injection EL as <-|]. destruct dy; congruence.
  - injection H as <-. apply C148_numpy_errors in ED as [->|(-> & d' & v & [= <-] & Hv & Hh)]; [now left|]. right. left. split; [reflexivity|]. now exists v.
Qed.
(* C153: the unlabeled data, the views and the metadata have no influence on the classifier *)
Theorem C153_labelled_only sp d d' dev dev' seed c c' b b' : d_xl d = d_xl d' -> d_yl d = d_yl d' ->
  fits sp (Some d) dev seed c b -> fits sp (Some d') dev' seed c' b' -> c = c' /\ b = b'.
Proof using Type.
  intros E1 E2 (d1 & [= <-] & (c0 & H1 & H2) & HB) (d2 & [= <-] & (c1 & H3 & H4) & HB'). rewrite H1 in H3. injection H3 as <-. rewrite E1, E2 in H2. rewrite H4 in H2. injection H2 as ->. split; [reflexivity|].
  destruct HB as [(-> & HR & _)|(-> & HR & _)], HB' as [(-> & HR' & _)|(-> & HR' & _)]; try reflexivity; exfalso.
  - destruct HR as (sl & _ & _ & _ & (i & dt & HX) & _). destruct HR' as (sl' & _ & _ & _ & _ & HT & _). rewrite <- E1, HX in HT. destruct HT as [(? & ? & ? & ? & [=])|(? & ? & ? & ? & ? & [=] & _)].
  - destruct HR' as (sl & _ & _ & _ & (i & dt & HX) & _). destruct HR as (sl' & _ & _ & _ & _ & HT & _). rewrite E1, HX in HT. destruct HT as [(? & ? & ? & ? & [=])|(? & ? & ? & ? & ? & [=] & _)].
Qed.

(* C153: after any history, the object holds the classifier of the last fit that succeeded, and none if there was none *)
Lemma life_cases sp ops : (never sp ops /\ life sp ops = new_object C) \/ exists c b, serves sp ops c b /\ o_clf (life sp ops) = Some c /\ o_backend (life sp ops) = Some b.
Proof using Type.
  induction ops as [|p ops IH] using rev_ind; [left; split; [intros d dev seed c b []|reflexivity]|]. unfold SblModel.life. rewrite fold_left_app. cbn [fold_left]. fold (life sp ops).
  assert (HKeep : (forall d dev seed c b, p = Fit d dev seed -> ~ fits sp d dev seed c b) -> after P C available np_device as_long as_tensor create train sp (life sp ops) p = life sp ops ->
    (never sp (ops ++ [p]) /\ after P C available np_device as_long as_tensor create train sp (life sp ops) p = new_object C) \/ exists c b, serves sp (ops ++ [p]) c b /\ o_clf (after P C available np_device as_long as_tensor create train sp (life sp ops) p) = Some c /\ o_backend (after P C available np_device as_long as_tensor create train sp (life sp ops) p) = Some b).
  { intros HN ->. destruct IH as [(HV & HE)|(c & b & (before & d & dev & seed & later & -> & HF & HL) & HC)].
    - left. split; [|exact HE]. intros d dev seed c b HI. apply in_app_or in HI as [HI|[HI|[]]]; [now apply HV|now apply HN].
    - right. exists c, b. split; [|exact HC]. exists before, d, dev, seed, (later ++ [p]). split; [now rewrite <- app_assoc|]. split; [exact HF|]. intros d' dev' seed' c' b' HI. apply in_app_or in HI as [HI|[HI|[]]]; [now apply HL|now apply HN]. }
  destruct p as [d dev seed|X|X].
  - destruct (fit sp (life sp ops) d dev seed) as [o' [[]|e]] eqn:E.
    + pose proof (proj1 (C153_fit _ _ _ _ _ _) E) as (c & b & HF & H1 & H2). right. exists c, b. cbn [after]. rewrite E. cbn [fst]. split; [|now split]. exists ops, d, dev, seed, []. split; [reflexivity|]. split; [exact HF|]. intros d' dev' seed' c' b' [].
    + apply HKeep; [|cbn [after]; rewrite E; now apply C153_failed_fit in E]. intros d' dev' seed' c b [= <- <- <-] HF. assert (HG : fit sp (life sp ops) d dev seed = ({| o_clf := Some c; o_backend := Some b |}, Ok tt)) by (apply C153_fit; exists c, b; split; [exact HF|split; reflexivity]). congruence.
  - apply HKeep; [discriminate|reflexivity].
  - apply HKeep; [discriminate|reflexivity].
Qed.
Lemma serves_fun sp ops c b c' b' : serves sp ops c b -> serves sp ops c' b' -> c = c' /\ b = b'.
Proof using Type.
  intros (p & d & dev & seed & q & -> & HF & HL) (p' & d' & dev' & seed' & q' & HE & HF' & HL').
  assert (HG : forall (p p' q q' : list op) x x', p ++ x :: q = p' ++ x' :: q' -> (p = p' /\ x = x' /\ q = q') \/ In x q' \/ In x' q).
  { clear. induction p as [|a p IH]; intros [|a' p'] q q' x x' HE; cbn [app] in HE; injection HE as HE1 HE2.
    - subst. tauto.
    - subst. right. right. apply in_or_app. right. now left.
    - subst. right. left. apply in_or_app. right. now left.
    - destruct (IH _ _ _ _ _ HE2) as [(-> & -> & ->)|[H|H]]; subst; tauto. }
  destruct (HG _ _ _ _ _ _ HE) as [(_ & [= <- <- <-] & _)|[HI|HI]]; [|destruct (HL' _ _ _ _ _ HI HF)|destruct (HL _ _ _ _ _ HI HF')].
  apply fitted_iff in HF, HF'. rewrite HF in HF'. injection HF' as <- <-. now split.
Qed.
Theorem C153_history sp ops c b : o_clf (life sp ops) = Some c /\ o_backend (life sp ops) = Some b <-> serves sp ops c b.
Proof using Type.
  destruct (life_cases sp ops) as [(HN & HE)|(c' & b' & HS & H1 & H2)].
  - rewrite HE. split; [intros ([=] & _)|]. intros (p & d & dev & seed & q & -> & HF & _). destruct (HN d dev seed c b); [apply in_or_app; right; now left|exact HF].
  - rewrite H1, H2. split; [intros ([= <-] & [= <-]); exact HS|]. intros HS'. destruct (serves_fun _ _ _ _ _ _ HS HS') as (-> & ->). now split.
Qed.
(* C153: before any successful fit, predictions are runtime errors *)
Theorem C153_unfitted sp ops X : never sp ops -> predict (life sp ops) X = Err RuntimeError /\ predict_proba (life sp ops) X = Err RuntimeError.
Proof using Type.
  intros HN. destruct (life_cases sp ops) as [(_ & ->)|(c & b & (p & d & dev & seed & q & -> & HF & _) & _)]; [split; reflexivity|]. destruct (HN d dev seed c b); [apply in_or_app; right; now left|exact HF].
Qed.
Lemma ready_iff sp ops X c b : ready C (life sp ops) X = Ok (c, b) <-> serves sp ops c b /\ takes b X.
Proof using Type.
  rewrite <- C153_history. unfold ready. destruct (life_cases sp ops) as [(_ & ->)|(c' & b' & _ & -> & ->)]; [split; [discriminate|intros (([=] & _) & _)]|]. split.
  - intros H. apply bind_ok in H as (k & HD & H). destruct (String.eqb_spec k b') as [->|]; [|discriminate]. injection H as <- <-. split; [now split|now apply detect_ok].
  - intros (([= ->] & [= ->]) & HT). apply detect_ok in HT. rewrite HT. cbn [bind]. now rewrite String.eqb_refl.
Qed.
(* C153: predict returns exactly what the classifier of the last successful fit predicts, on arguments of the kind it was fitted on *)
Theorem C153_predict sp ops X r : predict (life sp ops) X = Ok r <->
  exists c b f, serves sp ops c b /\ takes b X /\ predict_of c = Some f /\ f X = Ok r.
Proof using Type.
  unfold SblModel.predict. split.
  - intros H. apply bind_ok in H as ([c b] & HR & H). apply ready_iff in HR as (HS & HT). destruct (predict_of c) as [f|] eqn:E; [|discriminate]. exists c, b, f. split; [exact HS|]. split; [exact HT|]. split; [exact E|exact H].
  - intros (c & b & f & HS & HT & HP & HF). rewrite (proj2 (ready_iff sp ops X c b) (conj HS HT)). cbn [bind]. now rewrite HP.
Qed.
(* C153: an argument of the other kind is refused *)
Theorem C153_mismatch sp ops X c b b' : serves sp ops c b -> takes b' X -> b <> b' ->
  predict (life sp ops) X = Err InductiveValidationError /\ predict_proba (life sp ops) X = Err InductiveValidationError.
Proof using Type.
  intros HS HT HN. apply C153_history in HS as (H1 & H2). apply detect_ok in HT. unfold SblModel.predict, SblModel.predict_proba, ready. rewrite H1, HT, H2. cbn [bind]. destruct (String.eqb_spec b' b) as [->|]; [now contradiction HN|]. split; reflexivity.
Qed.
(* C153: predict_proba returns exactly when the classifier has scores for the argument *)
Theorem C153_proba_returns sp ops X : (exists s, predict_proba (life sp ops) X = Ok s) <->
  exists c b sh r at_, serves sp ops c b /\ takes b X /\ gives c b X sh r at_.
Proof using Type.
  unfold SblModel.predict_proba. split.
  - intros (s & H). apply bind_ok in H as ([c b] & HR & H). apply ready_iff in HR as (HS & HT). apply bind_ok in H as (raw & HP & _). pose proof (proj1 (scores_iff C scores_of proba_of predict_of classes_of c X b raw HT) HP) as (sh & r & at_ & HG & _). now exists c, b, sh, r, at_.
  - intros (c & b & sh & r & at_ & HS & HT & HG). rewrite (proj2 (ready_iff sp ops X c b) (conj HS HT)). cbn [bind]. rewrite (proj2 (scores_iff C scores_of proba_of predict_of classes_of c X b (match at_ with Some dv => STen dv sh r | None => SArr sh r end) HT)) by (now exists sh, r, at_). cbn [bind]. eexists. reflexivity.
Qed.
(* C153: its rows are the scores of the classifier, each row divided by its sum unless that is zero *)
Theorem C153_proba sp ops X s : predict_proba (life sp ops) X = Ok s ->
  exists c b sh r at_ r', serves sp ops c b /\ takes b X /\ gives c b X sh r at_ /\ Forall2 scaled r r' /\
    s = match at_ with Some dv => STen dv sh r' | None => SArr sh r' end.
Proof using Type.
  intros H. unfold SblModel.predict_proba in H. apply bind_ok in H as ([c b] & HR & H). apply ready_iff in HR as (HS & HT). apply bind_ok in H as (raw & HP & H). pose proof (proj1 (scores_iff C scores_of proba_of predict_of classes_of c X b raw HT) HP) as (sh & r & at_ & HG & ->).
  exists c, b, sh, r, at_, (map EnsembleModel.normalise_row r). split; [exact HS|]. split; [exact HT|]. split; [exact HG|]. split; [clear; induction r; cbn [map]; constructor; [apply scaled_ok|assumption]|]. injection H as <-. destruct at_; reflexivity.
Qed.
(* C153: a row of scores of nonzero sum becomes a row of sum 1 *)
Theorem C153_sums sp ops X s : predict_proba (life sp ops) X = Ok s ->
  exists c b sh r at_, serves sp ops c b /\ gives c b X sh r at_ /\ length (s_rows s) = length r /\
    forall i, (i < length r)%nat -> ~ (sum (nth i r []) == 0)%Q -> (sum (nth i (s_rows s) []) == 1)%Q.
Proof using Type.
  intros H. apply C153_proba in H as (c & b & sh & r & at_ & q & HS & _ & HG & HF & ->). exists c, b, sh, r, at_. split; [exact HS|]. split; [exact HG|].
  assert (HQ : s_rows (match at_ with Some dv => STen dv sh q | None => SArr sh q end) = q) by (destruct at_; reflexivity). rewrite HQ. split; [clear -HF; induction HF; cbn [length]; congruence|]. intros i HI HN. apply (scaled_sum (nth i r [])); [|exact HN].
  clear -HF HI. revert i HI. induction HF as [|x y l l' Hxy _ IH]; intros [|i] HI; cbn [length nth] in *; try lia; [exact Hxy|]. apply IH. lia.
Qed.
(* C153: without scores, a prediction outside classes_ is a type error *)
Theorem C153_unknown_class sp ops X c f sh labels classes : serves sp ops c "numpy" -> takes "numpy" X -> silent scores_of proba_of c ->
  predict_of c = Some f -> f X = Ok (sh, labels) -> classes_of c = Some classes -> (exists k, In k labels /\ ~ In k classes) ->
  predict_proba (life sp ops) X = Err TypeError.
Proof using Type.
  intros HS HT (E1 & E2) EP EF EC HK. unfold SblModel.predict_proba. rewrite (proj2 (ready_iff sp ops X c "numpy") (conj HS HT)). cbn [bind]. unfold SblModel.predict_scores. cbn [String.eqb Ascii.eqb Bool.eqb]. destruct HT as [(_ & s & i & dt & ->)|([=] & _)]. unfold scores_numpy. rewrite E1, E2, EP, EF. cbn [bind fst snd]. rewrite EC.
  apply positions_err in HK. now rewrite HK.
Qed.
(* C153, refuted: any name but torch is let through for arrays, auto among them, whatever backend the registry then picks *)
Theorem C153_auto_refuted sp d seed c0 c : sp_backend sp = "auto" -> numpy_ready d -> (exists n, (0 < n)%nat /\ array_labels (d_yl d) n) ->
  create sp seed = Ok c0 -> train c0 (d_xl d) (d_yl d) = Ok c -> fits sp (Some d) "cpu" seed c "numpy".
Proof using Type.
  intros HB HR HL HC HT. exists d. split; [reflexivity|]. split; [now exists c0|]. left. split; [reflexivity|]. split; [exact HR|]. split; [rewrite HB; discriminate|]. split; [now left|exact HL].
Qed.
End Baseline.

(* a classifier that counts its fits and predicts 7, 3, 7; it has no scores *)
Definition bx_create (_ : spec unit) (seed : Z) : result Z := if seed <? 0 then Err ValueError else Ok (10 * seed).
Definition bx_train (c : Z) (_ _ : val) : result Z := Ok (c + 1).
Definition bx_predict (_ : Z) : option (val -> result (list nat * list Z)) := Some (fun _ => Ok ([3%nat], [7; 3; 7])).
Definition bx_spec (b : string) : spec unit := {| sp_backend := b; sp_rest := tt |}.
Definition bx_np (n : nat) : data := {| d_xl := Arr 1 [n; 2]%nat NotInt; d_yl := Arr 2 [n]%nat Int64; d_xu := Arr 3 [5; 2]%nat NotInt; d_xw := Nothing; d_xs := Nothing; d_views := NoMap; d_meta := NoMap |}.
Definition bx_t (xu : val) : data := {| d_xl := Ten 1 [3; 2]%nat NotInt Cpu; d_yl := Ten 2 [3]%nat Int64 Cpu; d_xu := xu; d_xw := Nothing; d_xs := Nothing; d_views := NoMap; d_meta := NoMap |}.
Notation bx_fit := (fit unit Z (fun _ => true) None (fun i => i) (fun v _ => Ok v) bx_create bx_train).
Notation bx_fits := (fits (fun _ => true) None (fun i => i) (fun v _ => Ok v) bx_create bx_train).
Notation bx_life := (life unit Z (fun _ => true) None (fun i => i) (fun v _ => Ok v) bx_create bx_train).
Notation bx_serves := (serves (fun _ => true) None (fun i => i) (fun v _ => Ok v) bx_create bx_train).
Notation bx_proba := (predict_proba Z (fun _ => None) (fun _ => None) bx_predict).
Example C153_fit_ex : bx_fits (bx_spec "sklearn") (Some (bx_np 3)) "cpu" 4 41 "numpy".
Proof. apply fitted_iff. vm_compute. reflexivity. Qed.
Example C153_fit_torch_ex : bx_fits (bx_spec "torch") (Some (bx_t (Ten 3 [5; 2]%nat NotInt Cpu))) "auto" 4 41 "torch".
Proof. apply fitted_iff. vm_compute. reflexivity. Qed.
Example C153_auto_ex : bx_fits (bx_spec "auto") (Some (bx_np 3)) "cpu" 4 41 "numpy".
Proof. apply fitted_iff. vm_compute. reflexivity. Qed.
(* a fit, a failed fit, predictions *)
Definition bx_ops : list op := [Fit (Some (bx_np 3)) "cpu" 4; Proba (Arr 9 [3; 2]%nat NotInt); Fit (Some (bx_np 0)) "cpu" 5; Fit (Some (bx_np 3)) "cpu" (-1)].
Example C153_history_ex : bx_serves (bx_spec "numpy") bx_ops 41 "numpy".
Proof. apply C153_history. vm_compute. split; reflexivity. Qed.
Example C153_never_ex : o_clf (bx_life (bx_spec "numpy") [Fit (Some (bx_np 0)) "cpu" 5; Predict Nothing]) = None.
Proof. vm_compute. reflexivity. Qed.
Example C153_one_hot_ex : bx_proba (fun _ => None) (bx_life (bx_spec "numpy") bx_ops) (Arr 9 [3; 2]%nat NotInt) = Ok (SArr [3; 2]%nat [[0; 1]; [1; 0]; [0; 1]]%Q).
Proof. vm_compute. reflexivity. Qed.
Example C153_unknown_ex : bx_proba (fun _ => Some [3; 5]) (bx_life (bx_spec "numpy") bx_ops) (Arr 9 [3; 2]%nat NotInt) = Err TypeError.
Proof. vm_compute. reflexivity. Qed.
Example C153_mismatch_ex : bx_proba (fun _ => None) (bx_life (bx_spec "numpy") bx_ops) (Ten 9 [3; 2]%nat NotInt Cpu) = Err InductiveValidationError.
Proof. vm_compute. reflexivity. Qed.
(* C153, refuted: unlabeled data in a dict without x pass the checks of the adapter, and make fit fail although they are not used *)
Theorem C153_unlabeled_refuted : exists xu : val,
  torch_ready (fun _ => true) (bx_t xu) (Some "cpu") true /\ (forall o, snd (bx_fit (bx_spec "torch") o (Some (bx_t Nothing)) "cpu" 4) = Ok tt) /\ forall o, snd (bx_fit (bx_spec "torch") o (Some (bx_t xu)) "cpu" 4) = Err AttributeError.
Proof.
  exists (Dict [(KStr "features", Ten 5 [5; 2]%nat NotInt Cpu)]). split; [apply checks_iff; vm_compute; reflexivity|]. split; intros o; vm_compute; reflexivity.
Qed.
Print Assumptions C153_fit.
Print Assumptions C153_failed_fit.
Print Assumptions C153_numpy_errors.
Print Assumptions C153_labelled_only.
Print Assumptions C153_history.
Print Assumptions C153_unfitted.
Print Assumptions C153_predict.
Print Assumptions C153_mismatch.
Print Assumptions C153_proba_returns.
Print Assumptions C153_proba.
Print Assumptions C153_sums.
Print Assumptions C153_unknown_class.
Print Assumptions C153_auto_refuted.
Print Assumptions C153_unlabeled_refuted.
