(* C173: the pretrained audio classifier. *)
From Coq Require Import Arith QArith Permutation Lia.
From Verif Require TbackProofs.
From Verif Require Import Prelude SupervisedModel SupervisedSpec SupervisedProofs TclfModel TclfSpec TclfProofs AftModel AftSpec AftProofs.
Local Open Scope list_scope.
Local Notation length := List.length.

(* which waveforms are read, and as what *)
Theorem C173_waves : forall x,
  (forall rows, prepare x = Ok rows -> read_as x rows) /\ ((exists rows, prepare x = Ok rows) <-> x_tensor x = true /\ exists n l, wave_shape (x_shape x) n l) /\ (forall e, prepare x = Err e -> e = SupervisedError).
Proof. intros x. split; [apply prepare_ok|]. split; [apply prepare_can|apply prepare_err]. Qed.
Print Assumptions C173_waves.
(* which answers of a model are read: a tensor of two dimensions as it is, one of three as means over frames; of a tuple the first part, of a list the last one *)
Theorem C173_features : forall out, (forall w m, features out = Ok (w, m) -> answers out w m) /\ ((exists w m, features out = Ok (w, m)) <-> exists w m, answers out w m).
Proof. intros out. split; [intros; apply features_ok; assumption|apply features_can]. Qed.
Print Assumptions C173_features.
Example C173_features_applies : answers (VTuple [VList [Rows 1 [[1]]; Frames 2 [[[1; 2]; [3; 6]]]]; Other])%Q 2 [[2; 4]]%Q.
Proof. apply answers_tuple. apply (layer_list [_]). apply tensor_three. constructor; [|constructor]. split; [reflexivity|]. intros [|[|j]] Hj _; [reflexivity|reflexivity|lia]. Qed.

Section Fit.
Context {B H Op G : Type}.
Variable seeded : Z -> G.
Variable run : bool -> list (list Q) -> B * G -> value * (B * G).
Variable new_head : nat -> nat -> G -> H * G.
Variable opt : bool -> B * H -> Op.
Variable randperm : nat -> G -> list nat * G.
Variable learn_head : list (list Q * nat) -> H * Op -> H * Op.
Variable learn : list (list Q * nat) -> list (list Q) -> B * H * Op -> B * H * Op.
Variable logits : H -> list Q -> list Q.
Variable softmax : list Q -> list Q.
Variable argmax : list Q -> nat.
Local Notation fit := (fit B H Op G seeded run new_head opt randperm learn_head learn).
Local Notation scores := (scores B H G run logits softmax).
Local Notation predict := (predict B H G run logits softmax argmax).
Local Notation seed_of sp := (match s_seed sp with Some s => s | None => 0%Z end).

(* the bundle: its model, with the arguments of the download, or without them after a TypeError *)
Theorem C173_load : forall bundle (b : B), load B bundle = Ok b <-> exists get, bundle = Some get /\ (get true = Ok b \/ get true = Err TypeError /\ get false = Ok b).
Proof.
  intros bundle b. unfold load. split.
  - destruct bundle as [get|]; [|discriminate]. destruct (get true) as [b'|e] eqn:E; [intros [= ->]; eauto|]. destruct e; try discriminate. eauto 6.
  - intros (get & -> & [->|[-> ->]]); reflexivity.
Qed.

Definition usable (sp : settings) (x : tensor) (y : labels) : Prop :=
  x_tensor x = true /\ y_tensor y = true /\ (0 < s_batch sp)%Z /\ (0 < s_epochs sp)%Z /\ (0 < s_lr sp)%Q /\ ~ In 0%nat (x_shape x) /\ x_dev x = y_dev y.
Lemma numel_zero s : numel s = 0%nat <-> In 0%nat s.
Proof. induction s as [|a s IH]; cbn [numel fold_right In]; [split; [discriminate|tauto]|]. fold (numel s). rewrite <- IH. split; intros E; nia. Qed.
Lemma checked_ok sp x y : checked sp x y = true <-> usable sp x y.
Proof.
  unfold checked, usable. rewrite !Bool.andb_true_iff, !Bool.negb_true_iff, !Z.ltb_lt, Z.eqb_eq, Nat.eqb_neq, numel_zero. assert (E : Qle_bool (s_lr sp) 0 = false <-> (0 < s_lr sp)%Q).
  { destruct (Qle_bool (s_lr sp) 0) eqn:E; [apply Qle_bool_iff in E; split; [discriminate|intros L; exfalso; apply (Qlt_not_le _ _ L E)]|]. split; [intros _|reflexivity]. apply Qnot_le_lt. intros L. apply Qle_bool_iff in L. congruence. }
  rewrite E. tauto.
Qed.
(* what is refused first leaves the classifier and the generator as they were *)
Theorem C173_refused : forall sp bundle x y obj g, ~ usable sp x y -> fit sp bundle x y obj g = (obj, Err SupervisedError, g).
Proof. intros sp bundle x y obj g N. unfold AftModel.fit. destruct (checked sp x y) eqn:E; [apply checked_ok in E; contradiction|reflexivity]. Qed.
(* a fit that succeeds needs all of this *)
Theorem C173_needs : forall sp bundle x y obj g obj' r g', fit sp bundle x y obj g = (obj', Ok r, g') ->
  usable sp x y /\ (exists b, load B bundle = Ok b) /\ (exists l, wave_shape (x_shape x) (length (y_data y)) l) /\ (0 <= s_decay sp)%Q.
Proof.
  intros sp bundle x y obj g obj' r g'. unfold AftModel.fit. destruct (checked sp x y) eqn:E; [|discriminate]. apply checked_ok in E. cbn [negb]. destruct (encode_labels (y_data y)) as [codes classes]. destruct (load B bundle) as [b|e]; [|discriminate].
  destruct (prepare x) as [rows|e] eqn:EP; cbn [bind]; [|discriminate]. destruct (Nat.eqb_spec (length rows) (length (y_data y))) as [EL|]; cbn [negb]; [|discriminate]. destruct (run false (firstn 1 rows) _) as [out [b1 g1]]. destruct (features out) as [[w m]|e]; [|discriminate]. destruct (new_head w (length classes) g1) as [h g2].
  destruct (Qle_bool 0 (s_decay sp)) eqn:ED; [|discriminate]. intros _. split; [exact E|]. split; [eauto|]. split; [|apply Qle_bool_iff, ED]. apply prepare_ok in EP. destruct EP as (_ & n & l & HS & HN & _). exists l. rewrite <- EL, HN. exact HS.
Qed.

(* what a successful fit has done *)
Theorem C173_training : permutes randperm -> forall sp bundle x y obj g obj' r g', fit sp bundle x y obj g = (obj', Ok r, g') ->
  exists b0 rows classes out b1 g1 width m h g2 b h' o', load B bundle = Ok b0 /\ read_as x rows /\ length rows = length (y_data y) /\ labels_of (y_data y) classes /\
    run false (firstn 1 rows) (b0, seeded (seed_of sp)) = (out, (b1, g1)) /\ answers out width m /\ new_head width (length classes) g1 = (h, g2) /\
    trained run randperm learn_head learn (s_freeze sp) width (Z.to_nat (s_batch sp)) rows (y_data y) classes (Z.to_nat (s_epochs sp)) (b1, h, opt (s_freeze sp) (b1, h), g2) (b, h', o', g') /\
    obj' = {| o_classes := Some (classes, y_dev y); o_backbone := Some b; o_head := Some (h', width) |} /\ r = {| rp_samples := length (y_data y); rp_features := width; rp_classes := length classes |}.
Proof.
  intros HP sp bundle x y obj g obj' r g' HF. assert (HN := C173_needs _ _ _ _ _ _ _ _ _ HF). destruct HN as ((_ & _ & HB & _) & _). revert HF. unfold AftModel.fit. destruct (checked sp x y); [|discriminate]. cbn [negb]. destruct (encode_labels (y_data y)) as [codes classes] eqn:EE. destruct (load B bundle) as [b0|e]; [|discriminate].
  destruct (prepare x) as [rows|e] eqn:EP; cbn [bind]; [|discriminate]. destruct (Nat.eqb_spec (length rows) (length (y_data y))) as [EL|]; cbn [negb]; [|discriminate]. destruct (run false (firstn 1 rows) _) as [out [b1 g1]] eqn:ER. destruct (features out) as [[w m]|e] eqn:EF; [|discriminate]. destruct (new_head w (length classes) g1) as [h g2] eqn:EH.
  destruct (Qle_bool 0 (s_decay sp)); [|discriminate]. cbn [negb o_classes o_backbone o_head].
  destruct (train B H Op G run randperm learn_head learn (s_freeze sp) w (Z.to_nat (s_batch sp)) (combine rows codes) (Z.to_nat (s_epochs sp)) (b1, h, opt (s_freeze sp) (b1, h), g2)) as [[[[b h'] o'] g3] [[]|e]] eqn:ET; [|discriminate]. intros [= <- <- <-].
  exists b0, rows, classes, out, b1, g1, w, m, h, g2, b, h', o'. split; [reflexivity|]. split; [apply prepare_ok, EP|]. split; [exact EL|]. split; [exact (proj1 (encode_labels_spec _ _ _ EE))|]. split; [exact ER|]. split; [apply features_ok, EF|]. split; [exact EH|].
  split; [|split; [reflexivity|rewrite EL; reflexivity]]. eapply train_ok; [exact EE|exact EL|exact HP|lia|exact ET].
Qed.
(* a frozen backbone comes out as it was loaded *)
Theorem C173_frozen : permutes randperm -> eval_keeps run -> forall sp bundle x y obj g obj' r g' b, s_freeze sp = true -> load B bundle = Ok b -> fit sp bundle x y obj g = (obj', Ok r, g') -> o_backbone B H obj' = Some b.
Proof.
  intros HP HK sp bundle x y obj g obj' r g' b Hf HL HF. destruct (C173_training HP _ _ _ _ _ _ _ _ _ HF) as (b0 & rows & classes & out & b1 & g1 & width & m & h & g2 & b2 & h' & o' & H1 & _ & _ & _ & HR & _ & _ & HT & -> & _). cbn [o_backbone].
  assert (K := HK (firstn 1 rows) (b0, seeded (seed_of sp))). rewrite HR in K. cbn in K. apply (trained_frozen run randperm learn_head learn) in HT; [|exact HK|exact Hf]. cbn in HT. congruence.
Qed.
(* the state of the generator before a fit does not matter; no seed is seed 0 *)
Theorem C173_seed : forall sp bundle x y obj g g', usable sp x y -> fit sp bundle x y obj g = fit sp bundle x y obj g' /\
  (s_seed sp = None -> fit sp bundle x y obj g = fit {| s_freeze := s_freeze sp; s_lr := s_lr sp; s_decay := s_decay sp; s_batch := s_batch sp; s_epochs := s_epochs sp; s_seed := Some 0%Z |} bundle x y obj g).
Proof. intros sp bundle x y obj g g' HU. apply checked_ok in HU. unfold AftModel.fit. split; [rewrite HU; reflexivity|]. intros HS. rewrite HS. unfold checked in *. cbn [s_batch s_epochs s_lr s_freeze s_decay s_seed]. reflexivity. Qed.

(* the scores: of the rows read, on the device of the labels, by the features of the backbone in evaluation mode *)
Theorem C173_scores : forall b h width classes dev x g s o',
  let obj := {| o_classes := Some (classes, dev); o_backbone := Some b; o_head := Some (h, width) |} in
  scores obj x g = (Ok s, o') ->
  x_dev x = dev /\ exists rows out b' g' f, read_as x rows /\ run false rows (b, g) = (out, (b', g')) /\ answers out width f /\ s = map (fun r => softmax (logits h r)) f /\ o' = ({| o_classes := Some (classes, dev); o_backbone := Some b'; o_head := Some (h, width) |}, g').
Proof.
  intros b h width classes dev x g s o' obj. unfold AftModel.scores, obj. cbn [o_classes o_backbone o_head]. destruct (prepare x) as [rows|e] eqn:EP; [|discriminate]. destruct (Z.eqb_spec (x_dev x) dev) as [ED|]; cbn [negb]; [|discriminate].
  destruct (run false rows (b, g)) as [out [b' g']] eqn:ER. destruct (features out) as [[w f]|e] eqn:EF; cbn [bind]; [|discriminate]. unfold fits. cbn [fst snd]. destruct (Nat.eqb_spec w width) as [->|]; cbn [andb]; [|discriminate]. rewrite Nat.eqb_refl. cbn [bind]. intros [= <- <-].
  split; [exact ED|]. exists rows, out, b', g', f. split; [apply prepare_ok, EP|]. split; [exact ER|]. split; [apply features_ok, EF|]. split; reflexivity.
Qed.
(* refusals of the scores, and predicting changes nothing where evaluation does not *)
Theorem C173_scores_refused : forall obj x g,
  (o_backbone B H obj = None \/ o_head B H obj = None \/ o_classes B H obj = None -> scores obj x g = (Err RuntimeError, (obj, g))) /\
  (forall b h c dev, o_backbone B H obj = Some b -> o_head B H obj = Some h -> o_classes B H obj = Some (c, dev) -> (~ exists rows, prepare x = Ok rows) \/ x_dev x <> dev -> scores obj x g = (Err SupervisedError, (obj, g))) /\
  (eval_keeps run -> snd (scores obj x g) = (obj, g)).
Proof.
  intros [c b h] x g. unfold AftModel.scores. cbn [o_classes o_backbone o_head]. split; [|split].
  - destruct b as [b|]; [|reflexivity]. destruct h as [[h w]|]; [|reflexivity]. destruct c as [[c d]|]; [|reflexivity]. intros [E|[E|E]]; discriminate.
  - intros b' [h' w] c' dev [= ->] [= ->] [= ->] N. destruct (prepare x) as [rows|e] eqn:EP; [|rewrite (prepare_err _ _ EP); reflexivity]. destruct N as [N|N]; [destruct N; eauto|]. destruct (Z.eqb_spec (x_dev x) dev); [contradiction|reflexivity].
  - intros HK. destruct b as [b|]; [|reflexivity]. destruct h as [[h w]|]; [|reflexivity]. destruct c as [[c d]|]; [|reflexivity]. destruct (prepare x) as [rows|e]; [|reflexivity]. destruct (negb (x_dev x =? d)%Z); [reflexivity|]. assert (K := HK rows (b, g)). destruct (run false rows (b, g)) as [out [b' g']]. cbn in K |- *. injection K as -> ->. reflexivity.
Qed.

(* after a successful fit every row with scores gets a class with the highest score *)
Theorem C173_predict : forall outputs, permutes randperm -> argmax_ok argmax -> (forall w k g, outputs (fst (new_head w k g)) = k) -> (forall E s, outputs (fst (learn_head E s)) = outputs (fst s)) ->
  (forall E f s, outputs (snd (fst (learn E f s))) = outputs (snd (fst s))) -> (forall h r, length (softmax (logits h r)) = outputs h) ->
  forall sp bundle x y obj g obj' r g', fit sp bundle x y obj g = (obj', Ok r, g') -> forall x' g2 s o2, scores obj' x' g2 = (Ok s, o2) ->
  exists classes l, labels_of (y_data y) classes /\ predict obj' x' g2 = Ok l /\ length l = length s /\
    forall i q, nth_error s i = Some q -> exists j c, nth_error classes j = Some c /\ nth_error l i = Some c /\ (forall v, In v q -> (v <= nth j q 0)%Q).
Proof.
  intros outputs HP HA O1 O2 O3 O4 sp bundle x y obj g obj' r g' HF x' g2 s o2 HS. destruct (C173_needs _ _ _ _ _ _ _ _ _ HF) as ((_ & _ & _ & _ & _ & HZ & _) & _ & (len & HW) & _).
  destruct (C173_training HP _ _ _ _ _ _ _ _ _ HF) as (b0 & rows & classes & out & b1 & g1 & width & m & h & gg & b2 & h' & o' & _ & _ & _ & HL & _ & _ & HH & HT & -> & _). exists classes.
  assert (HO : outputs h' = length classes). { apply (trained_outputs run randperm learn_head learn _ _ _ _ _ _ outputs O2 O3) in HT. cbn in HT. rewrite HT. assert (K := O1 width (length classes) g1). rewrite HH in K. exact K. }
  assert (Hc : (0 < length classes)%nat).
  { destruct classes as [|c classes]; [|cbn; lia]. exfalso. destruct HL as [_ HL]. assert (Hy : y_data y = []) by (destruct (y_data y) as [|z l]; [reflexivity|exfalso; apply (HL z); left; reflexivity]). rewrite Hy in HW. cbn in HW. inversion HW as [l E1 E2|n l E1 E2|n l E1 E2]; subst; rewrite <- E1 in HZ; apply HZ; left; reflexivity. }
  unfold AftModel.predict. rewrite HS. cbn [fst bind o_classes]. destruct (C173_scores _ _ _ _ _ _ _ _ _ HS) as (_ & rows' & out' & b' & gg' & f & _ & _ & _ & -> & _). clear HS.
  assert (N : forall f, exists l, named classes (map argmax (map (fun r => softmax (logits h' r)) f)) = Ok l /\ length l = length f /\ forall i q, nth_error (map (fun r => softmax (logits h' r)) f) i = Some q -> exists j c, nth_error classes j = Some c /\ nth_error l i = Some c /\ (forall v, In v q -> (v <= nth j q 0)%Q)).
  { clear f. induction f as [|a f IH]; [exists []; split; [reflexivity|]; split; [reflexivity|]; intros [|i] q; discriminate|]. destruct IH as (l & E & EL & EN). cbn [map named].
    assert (HQ : softmax (logits h' a) <> []) by (intros E0; assert (K := O4 h' a); rewrite E0, HO in K; cbn in K; lia). destruct (HA _ HQ) as [A1 A2]. rewrite O4, HO in A1.
    destruct (nth_error classes (argmax (softmax (logits h' a)))) as [c|] eqn:Ec; [|apply nth_error_None in Ec; lia]. rewrite E. cbn [bind]. exists (c :: l). split; [reflexivity|]. split; [cbn; lia|]. intros [|i] q Hq; cbn [nth_error] in *; [injection Hq as <-; eauto|apply EN, Hq]. }
  destruct (N f) as (l & E & EL & EN). exists l. split; [exact HL|]. split; [exact E|]. split; [rewrite map_length; exact EL|exact EN].
Qed.
End Fit.
Print Assumptions C173_load.
Print Assumptions C173_refused.
Print Assumptions C173_needs.
Print Assumptions C173_training.
Print Assumptions C173_frozen.
Print Assumptions C173_seed.
Print Assumptions C173_scores.
Print Assumptions C173_scores_refused.
Print Assumptions C173_predict.

(* Finding: after a TypeError inside the download the second call is not guarded: any error of it passes, not the announced one *)
Theorem C173_load_refuted : forall (B : Type) (e : exn), exists get : bool -> result B, get true = Err TypeError /\ load B (Some get) = Err e /\ load B (Some (fun _ => Err RuntimeError)) = Err SupervisedError.
Proof. intros B e. exists (fun k : bool => if k then Err TypeError else Err e). repeat split. Qed.
Print Assumptions C173_load_refuted.

(* an instance: the backbone gives the rows as they are; heads count their steps and know their outputs *)
Local Open Scope Q_scope.
Definition c173_run (_ : bool) (l : list (list Q)) (s : nat * nat) : value * (nat * nat) := (VTuple [VList [Rows 2 l]], s).
Definition c173_fit freeze := fit nat (nat * nat) nat nat Z.to_nat c173_run (fun _ k g => ((0%nat, k), g)) (fun _ _ => 0%nat) (fun n g => (rev (seq 0 n), g)) (fun _ '((c, k), o) => ((S c, k), o)) (fun _ _ '(b, (c, k), o) => (S b, (S c, k), o))
  {| s_freeze := freeze; s_lr := 1; s_decay := 0; s_batch := 2%Z; s_epochs := 3%Z; s_seed := None |} (Some (fun _ => Ok 5%nat)).
Definition c173_logits (h : nat * nat) (r : list Q) : list Q := map (fun j => inject_Z (Z.of_nat j)) (seq 0 (snd h)).
Definition c173_last (l : list Q) : nat := pred (length l).
Definition c173_predict := predict nat (nat * nat) nat c173_run c173_logits (fun l => l) c173_last.
Definition c173_x (s : list nat) (l : list Q) : tensor := {| x_tensor := true; x_dev := 0%Z; x_shape := s; x_data := l |}.
Definition c173_y (l : list Z) : labels := {| y_tensor := true; y_dev := 0%Z; y_data := l |}.
Definition c173_new : object nat (nat * nat) := {| o_classes := None; o_backbone := None; o_head := None |}.
Definition c173_fitted : object nat (nat * nat) := {| o_classes := Some ([7; 8; 9]%Z, 0%Z); o_backbone := Some 5%nat; o_head := Some ((6%nat, 3%nat), 2%nat) |}.
Example C173_applies : eval_keeps c173_run /\ c173_fit true (c173_x [3; 2]%nat [1; 2; 3; 4; 5; 6]) (c173_y [8; 7; 9]%Z) c173_new 0%nat = (c173_fitted, Ok {| rp_samples := 3; rp_features := 2; rp_classes := 3 |}, 0%nat) /\
  c173_predict c173_fitted (c173_x [1; 1; 2]%nat [1; 2]) 0%nat = Ok [9%Z] /\ (exists obj r g, c173_fit false (c173_x [1; 1; 2]%nat [1; 2]) (c173_y [8%Z]) c173_new 0%nat = (obj, Ok r, g) /\ o_backbone _ _ obj = Some 8%nat).
Proof. split; [intros l s; reflexivity|]. split; [vm_compute; reflexivity|]. split; [vm_compute; reflexivity|]. do 3 eexists. split; vm_compute; reflexivity. Qed.
(* Finding: a second fit that is refused (stereo waveforms) leaves the labels of the refused fit with the head of the first: predictions answer other labels, or fail for want of a class *)
Theorem C173_failed_fit_refuted : exists obj g, c173_fit true (c173_x [1; 2; 1]%nat [1; 2]) (c173_y [4; 5; 6]%Z) c173_fitted 0%nat = (obj, Err SupervisedError, g) /\
  c173_predict c173_fitted (c173_x [2]%nat [1; 2]) 0%nat = Ok [9%Z] /\ c173_predict obj (c173_x [2]%nat [1; 2]) 0%nat = Ok [6%Z] /\
  exists obj' g', c173_fit true (c173_x [1; 2; 1]%nat [1; 2]) (c173_y [4]%Z) c173_fitted 0%nat = (obj', Err SupervisedError, g') /\ c173_predict obj' (c173_x [2]%nat [1; 2]) 0%nat = Err IndexError.
Proof. do 2 eexists. split; [vm_compute; reflexivity|]. split; [vm_compute; reflexivity|]. split; [vm_compute; reflexivity|]. do 2 eexists. split; vm_compute; reflexivity. Qed.
Print Assumptions C173_failed_fit_refuted.
