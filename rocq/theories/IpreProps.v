(* C170: the fine-tuned torchvision classifier. *)
From Coq Require Import Arith QArith String Permutation Lia.
From Verif Require Import Prelude SupervisedModel SupervisedSpec SupervisedProofs TclfModel TclfSpec TclfProofs IpreModel IpreSpec IpreProofs.
Local Open Scope string_scope.
Local Open Scope list_scope.
Local Notation length := List.length.

(* exactly one layer is replaced: a linear one, by one with the same inputs and an output per class *)
Theorem C170_head : forall m k m' p i, replace_classifier m k = Ok (m', p, i) ->
  may_be_head m p /\ linear_at m p i /\ layer_at m' p = Some (Linear i k) /\ forall q, q <> p -> layer_at m' q = layer_at m q.
Proof. intros m k m' p i H. exact (proj1 (replace_ok m k m' p i H)). Qed.
Print Assumptions C170_head.

(* which: fc before the others, the last linear layer of a classifier, and heads only without a classifier to replace *)
Theorem C170_head_choice : forall m k m' p i, replace_classifier m k = Ok (m', p, i) ->
  (p <> AtFc -> forall i', ~ linear_at m AtFc i') /\ (forall j, p = InClassifier j -> forall j' i', (j < j')%nat -> ~ linear_at m (InClassifier j') i') /\
  ((exists j, p = InHeads j) \/ p = AtHeads \/ p = AtHead -> forall q i', q = AtClassifier \/ (exists j, q = InClassifier j) -> may_be_head m q -> ~ linear_at m q i').
Proof. intros m k m' p i H. exact (proj2 (replace_ok m k m' p i H)). Qed.
Print Assumptions C170_head_choice.
Definition c170_vgg : net := {| n_fc := None; n_classifier := Some (Group true [("0", Linear 9 7); ("1", Layer 0); ("2", Linear 7 1000); ("3", Layer 1)]); n_heads := None; n_head := None |}.
Example C170_head_applies : exists m', replace_classifier c170_vgg 3 = Ok (m', InClassifier 2, 7%nat) /\ layer_at m' (InClassifier 2) = Some (Linear 7 3) /\ layer_at m' (InClassifier 0) = Some (Linear 9 7).
Proof. eexists. split; [reflexivity|]. split; reflexivity. Qed.

(* a network without a linear layer where heads are looked for is refused *)
Theorem C170_head_refused : forall m k, (exists x, replace_classifier m k = Err x) <-> forall p i, may_be_head m p -> ~ linear_at m p i.
Proof. exact replace_none. Qed.
Print Assumptions C170_head_refused.

(* the images fitted: those the layout, the rank and the shape stand for, with a single channel three times where the network wants three *)
Theorem C170_pictures : forall V sp known expected (x : arr V),
  ((exists p, snd (prepare V sp known expected true x) = Ok p) <-> exists n s val, reads_as (s_layout sp) known (s_shape sp) x n s val /\ showable (s_repeat sp) expected s) /\
  forall known' p, prepare V sp known expected true x = (known', Ok p) -> exists n s val, reads_as (s_layout sp) known (s_shape sp) x n s val /\ known' = Some s /\ shown (s_repeat sp) expected n s val p.
Proof. intros. split; [apply prepare_fit_can|apply prepare_fit]. Qed.
Print Assumptions C170_pictures.
Example C170_pictures_applies : exists val, reads_as "channels_last" None (Some [2; 2]%nat) (A2 nat 5 4 (fun i j => i * 4 + j)%nat) 5 (1, 2, 2)%nat val /\ showable true (Some 3%nat) (1, 2, 2)%nat /\ val 1%nat 0%nat 1%nat 0%nat = 6%nat.
Proof.
  eexists. split.
  - apply (reads_flat _ _ _ 5 1 2 2 (fun i j => i * 4 + j)%nat). right. split; [reflexivity|]. right. split; reflexivity.
  - split; [right; right; repeat split|reflexivity].
Qed.

(* a fitted classifier takes images of the shape it was fitted with and no others, whatever they are stored as, and predicting leaves that shape alone *)
Theorem C170_fitted_shape : forall V sp s expected (x : arr V),
  ((exists p, snd (prepare V sp (Some s) expected false x) = Ok p) <-> (exists n val, reads_as (s_layout sp) (Some s) (s_shape sp) x n s val) /\ showable (s_repeat sp) expected s) /\
  fst (prepare V sp (Some s) expected false x) = Some s.
Proof. intros. split; [apply prepare_predict_can|apply prepare_predict_known]. Qed.
Print Assumptions C170_fitted_shape.

Section Fit.
Context {V B H Op G : Type}.
Variable manual_seed : Z -> G.
Variable randperm : G -> nat -> list nat * G.
Variable load : G -> result (net * B * option nat) * G.
Variable new_head : nat -> nat -> G -> H * G.
Variable opt : bool -> B -> H -> Op.
Variable step : bool -> bool -> list (row V * nat) -> B * H * Op * G -> B * H * Op * G.
Variable logits : B -> H -> row V -> list Q.
Variable softmax : list Q -> list Q.
Variable argmax : list Q -> nat.
Local Notation fit := (fit V B H Op G manual_seed randperm load new_head opt step).
Local Notation scores := (scores V B H logits softmax).
Local Notation predict := (predict V B H logits softmax argmax).

(* what a successful fit has done, from the loaded network and the new head to the trained ones *)
Lemma fit_ok sp X y obj g obj' r g' : fit sp X y obj g = (obj', Ok r, g') ->
  exists x l codes classes m b e g0 m' pl i h g1 n s val p b' h' o',
    X = Some x /\ y = Some l /\ checks V sp x l = true /\ encode_labels (l_data l) = (codes, classes) /\
    load (manual_seed (match s_seed sp with Some z => z | None => 0%Z end)) = (Ok (m, b, e), g0) /\ replace_classifier m (length classes) = Ok (m', pl, i) /\
    new_head i (length classes) g0 = (h, g1) /\ reads_as (s_layout sp) (o_known B H obj) (s_shape sp) (x_arr V x) n s val /\ shown (s_repeat sp) e n s val p /\ p_n V p = length (l_data l) /\
    train V B H Op G randperm step sp (combine (rows V p) codes) (Z.to_nat (s_epochs sp)) (b, h, opt (negb (s_freeze sp)) b h, g1) = (b', h', o', g') /\
    obj' = {| o_known := Some s; o_expected := e; o_model := Some (m', b', h'); o_classes := Some (classes, l_dev l) |} /\
    r = {| r_samples := p_n V p; r_features := p_c V p * p_h V p * p_w V p; r_classes := length classes |}.
Proof.
  unfold IpreModel.fit. destruct X as [x|]; [|intros Hd; discriminate]. destruct y as [l|]; [|intros Hd; discriminate].
  destruct (checks V sp x l) eqn:Ec; [|intros Hd; discriminate]. cbn [negb]. destruct (encode_labels (l_data l)) as [codes classes] eqn:Ee. cbv zeta.
  destruct (load _) as [[[[m b] e]|er] g0] eqn:El; cbn [bind]; [|intros Hd; discriminate]. destruct (replace_classifier m (length classes)) as [[[m' pl] i]|er] eqn:Er; cbn [bind]; [|intros Hd; discriminate].
  destruct (new_head i (length classes) g0) as [h g1] eqn:Eh. cbn [o_known o_classes]. destruct (prepare V sp (o_known B H obj) e true (x_arr V x)) as [known [p|er]] eqn:Ep; [|intros Hd; discriminate].
  destruct (Nat.eqb_spec (p_n V p) (length (l_data l))) as [Hn|]; cbn [negb]; [|intros Hd; discriminate]. destruct (Qle_bool 0 (s_decay sp)); cbn [negb]; [|intros Hd; discriminate].
  destruct (train V B H Op G randperm step sp _ _ _) as [[[b' h'] o'] g2] eqn:Et. intros [= <- <- <-].
  destruct (prepare_fit V _ _ _ _ _ _ Ep) as (n & s & val & P1 & -> & P3).
  exists x, l, codes, classes, m, b, e, g0, m', pl, i, h, g1, n, s, val, p, b', h', o'. repeat (split; [first [reflexivity|assumption]|]). reflexivity.
Qed.

(* training goes through every row once in every epoch; a frozen backbone is never optimized nor in training mode, another one is, but for single rows *)
Theorem C170_training : randperm_ok randperm -> forall sp X y obj g obj' r g', fit sp X y obj g = (obj', Ok r, g') ->
  exists x l classes m b e g0 m' pl i h g1 n s val p b' h' o',
    X = Some x /\ y = Some l /\ labels_of (l_data l) classes /\ load (manual_seed (match s_seed sp with Some z => z | None => 0%Z end)) = (Ok (m, b, e), g0) /\
    replace_classifier m (length classes) = Ok (m', pl, i) /\ new_head i (length classes) g0 = (h, g1) /\
    reads_as (s_layout sp) (o_known B H obj) (s_shape sp) (x_arr V x) n s val /\ shown (s_repeat sp) e n s val p /\
    trained step randperm (s_freeze sp) (Z.to_nat (s_batch sp)) p (l_data l) classes (Z.to_nat (s_epochs sp)) (b, h, opt (negb (s_freeze sp)) b h, g1) (b', h', o', g') /\
    o_model B H obj' = Some (m', b', h') /\ o_classes B H obj' = Some (classes, l_dev l) /\ o_known B H obj' = Some s /\ o_expected B H obj' = e.
Proof.
  intros HP sp X y obj g obj' r g' HF.
  destruct (fit_ok _ _ _ _ _ _ _ _ HF) as (x & l & codes & classes & m & b & e & g0 & m' & pl & i & h & g1 & n & s & val & p & b' & h' & o' & -> & -> & Hc & He & Hl & Hr & Hh & Hx & Hs & Hn & Ht & -> & ->).
  exists x, l, classes, m, b, e, g0, m', pl, i, h, g1, n, s, val, p, b', h', o'. do 2 (split; [reflexivity|]). split; [exact (proj1 (encode_labels_spec _ _ _ He))|].
  do 5 (split; [assumption|]). split; [|repeat split]. rewrite <- Ht. apply train_trained; [exact He|exact Hn|exact HP|]. unfold checks in Hc. rewrite !Bool.andb_true_iff in Hc. destruct Hc as (((((_ & Hb) & _) & _) & _) & _). apply Z.ltb_lt, Hb.
Qed.

(* what is reported is what was fitted *)
Theorem C170_report : forall sp X y obj g obj' r g', fit sp X y obj g = (obj', Ok r, g') ->
  exists x l n s val p classes, X = Some x /\ y = Some l /\ reads_as (s_layout sp) (o_known B H obj) (s_shape sp) (x_arr V x) n s val /\ shown (s_repeat sp) (o_expected B H obj') n s val p /\ labels_of (l_data l) classes /\
    r_samples r = length (l_data l) /\ r_samples r = n /\ r_features r = (p_c V p * p_h V p * p_w V p)%nat /\ r_classes r = length classes.
Proof.
  intros sp X y obj g obj' r g' HF.
  destruct (fit_ok _ _ _ _ _ _ _ _ HF) as (x & l & codes & classes & m & b & e & g0 & m' & pl & i & h & g1 & n & s & val & p & b' & h' & o' & -> & -> & Hc & He & Hl & Hr & Hh & Hx & Hs & Hn & Ht & -> & ->).
  exists x, l, n, s, val, p, classes. cbn. do 4 (split; [first [reflexivity|assumption]|]). split; [exact (proj1 (encode_labels_spec _ _ _ He))|]. split; [exact Hn|]. split; [|split; reflexivity].
  destruct s as [[c hh] w]. apply Hs.
Qed.

(* a frozen backbone comes out of the training as it was loaded *)
Theorem C170_frozen : eval_keeps step -> forall sp X y obj g obj' r g', s_freeze sp = true -> fit sp X y obj g = (obj', Ok r, g') ->
  exists m b e g0 m' h', load (manual_seed (match s_seed sp with Some z => z | None => 0%Z end)) = (Ok (m, b, e), g0) /\ o_model B H obj' = Some (m', b, h').
Proof.
  intros HK sp X y obj g obj' r g' Hf HF.
  destruct (fit_ok _ _ _ _ _ _ _ _ HF) as (x & l & codes & classes & m & b & e & g0 & m' & pl & i & h & g1 & n & s & val & p & b' & h' & o' & -> & -> & Hc & He & Hl & Hr & Hh & Hx & Hs & Hn & Ht & -> & ->).
  exists m, b, e, g0, m', h'. split; [exact Hl|]. cbn. assert (Hb := frozen_keeps step randperm sp (combine (rows V p) codes) HK Hf (Z.to_nat (s_epochs sp)) b h (opt (negb (s_freeze sp)) b h) g1).
  rewrite Ht in Hb. cbn in Hb. rewrite Hb. reflexivity.
Qed.

(* the state of the global generator before a fit does not matter *)
Theorem C170_seed : forall sp X y obj g g', fst (fit sp X y obj g) = fst (fit sp X y obj g').
Proof.
  intros. unfold IpreModel.fit. destruct X as [x|]; [|reflexivity]. destruct y as [l|]; [|reflexivity]. destruct (negb (checks V sp x l)); [reflexivity|].
  destruct (encode_labels (l_data l)) as [codes classes]. cbv zeta. reflexivity.
Qed.

(* what is refused at once leaves the classifier as it was: no tensors, another layout, no batches or epochs, no rate, nothing to fit, another device *)
Theorem C170_refused : forall sp X y obj g,
  (X = None \/ y = None \/ (exists x l, X = Some x /\ y = Some l /\
     ((s_layout sp <> "channels_first" /\ s_layout sp <> "channels_last") \/ (s_batch sp <= 0)%Z \/ (s_epochs sp <= 0)%Z \/ (s_lr sp <= 0)%Q \/ numel V (x_arr V x) = 0%nat \/ x_dev V x <> l_dev l))) ->
  fit sp X y obj g = (obj, Err SupervisedError, g).
Proof.
  intros sp X y obj g HH. unfold IpreModel.fit. destruct X as [x|]; [|reflexivity]. destruct y as [l|]; [|reflexivity]. destruct HH as [Hd|[Hd|(x0 & l0 & [= <-] & [= <-] & HH)]]; try discriminate.
  assert (Hc : checks V sp x l = false); [|rewrite Hc; reflexivity]. unfold checks. apply Bool.not_true_iff_false. rewrite !Bool.andb_true_iff, Bool.orb_true_iff, !String.eqb_eq, !Z.ltb_lt, !Bool.negb_true_iff, Nat.eqb_neq, Z.eqb_eq.
  intros (((((H1 & H2) & H3) & H4) & H5) & H6). destruct HH as [[Ha Hb]|[Ha|[Ha|[Ha|[Ha|Ha]]]]]; try tauto; try lia. apply Qle_bool_iff in Ha. congruence.
Qed.

(* predictions of a fitted classifier: for every image the class the network scores highest; the classifier is not changed *)
Theorem C170_predict : argmax_ok argmax -> (forall b h x, softmax (logits b h x) <> []) -> forall sp X y obj g obj' r g' x s, fit sp X y obj g = (obj', Ok r, g') -> snd (scores sp obj' (Some x)) = Ok s ->
  fst (scores sp obj' (Some x)) = obj' /\ exists classes labels, option_map fst (o_classes B H obj') = Some classes /\ predict sp obj' (Some x) = (obj', Ok labels) /\ length labels = length s /\
  forall i q, nth_error s i = Some q -> exists j, (j < length q)%nat /\ nth_error labels i = Some (nth j classes 0%Z) /\ forall v, In v q -> (v <= nth j q 0)%Q.
Proof.
  intros HA HS sp X y obj g obj' r g' x s HF HX.
  destruct (fit_ok _ _ _ _ _ _ _ _ HF) as (x0 & l & codes & classes & m & b & e & g0 & m' & pl & i & h & g1 & n & s0 & val & p & b' & h' & o' & -> & -> & Hc & He & Hl & Hr & Hh & Hx & Hs & Hn & Ht & -> & ->).
  clear HF. assert (Hk := prepare_predict_known V sp s0 e (x_arr V x)). unfold IpreModel.predict. unfold IpreModel.scores in *. cbn [o_model o_classes o_known o_expected] in *.
  destruct (prepare V sp (Some s0) e false (x_arr V x)) as [known rr]. cbn [fst] in Hk. subst known.
  assert (HX' : (do p <- rr; if negb (x_dev V x =? l_dev l)%Z then Err SupervisedError else Ok (map (fun r => softmax (logits b' h' r)) (rows V p))) = Ok s) by exact HX.
  clear HX. cbn [fst]. split; [reflexivity|]. exists classes, (map (fun p => nth (argmax p) classes 0%Z) s). rewrite HX'. cbn [bind]. split; [reflexivity|]. split; [reflexivity|]. split; [apply map_length|].
  intros k q Hq. destruct rr as [pp|]; [|discriminate]. cbn [bind] in HX'. destruct (negb (x_dev V x =? l_dev l)%Z); [discriminate|]. injection HX' as <-. assert (Hin := nth_error_In _ _ Hq). apply in_map_iff in Hin. destruct Hin as (rw & <- & _).
  exists (argmax (softmax (logits b' h' rw))). destruct (HA _ (HS b' h' rw)) as [A1 A2]. split; [exact A1|]. split; [|exact A2]. rewrite nth_error_map, Hq. reflexivity.
Qed.
End Fit.
Print Assumptions C170_training.
Print Assumptions C170_report.
Print Assumptions C170_frozen.
Print Assumptions C170_seed.
Print Assumptions C170_refused.
Print Assumptions C170_predict.

(* an instance of all this: the parameters of the network count the steps, the head its classes *)
Definition c170_net : net := {| n_fc := Some (Linear 5 1000); n_classifier := None; n_heads := None; n_head := None |}.
Definition c170_load (g : nat) : result (net * nat * option nat) * nat := (Ok (c170_net, 100%nat, Some 3%nat), S g).
Definition c170_perm (g n : nat) : list nat * nat := (rev (seq 0 n), S g).
Definition c170_step (tuned training : bool) (E : list (row Z * nat)) (s : nat * nat * nat * nat) : nat * nat * nat * nat := let '(b, h, o, g) := s in (if tuned then S b else b, (h + length E)%nat, S o, g).
Definition c170_sp (freeze : bool) : settings := {| s_layout := "channels_first"; s_shape := Some [1; 4]%nat; s_repeat := true; s_freeze := freeze; s_lr := 1; s_decay := 0; s_batch := 2; s_epochs := 2; s_seed := None |}.
Definition c170_fit freeze := fit Z nat nat nat nat Z.to_nat c170_perm c170_load (fun i k g => (k, S g)) (fun _ _ _ => 0%nat) c170_step (c170_sp freeze).
Definition c170_scores freeze := scores Z nat nat (fun b h r => [inject_Z (Z.of_nat h); inject_Z (r 0 0 0)%nat]) (fun l => l) (c170_sp freeze).
Definition c170_new : object nat nat := {| o_known := None; o_expected := None; o_model := None; o_classes := None |}.
Definition c170_flat (n d : nat) : image Z := {| x_arr := A2 Z n d (fun i j => Z.of_nat (i * d + j)); x_dev := 0 |}.
Definition c170_square (n : nat) : image Z := {| x_arr := A3 Z n 2 2 (fun i u v => Z.of_nat (i * 4 + u * 2 + v)); x_dev := 0 |}.
Definition c170_y (l : list Z) : labels := {| l_data := l; l_dev := 0 |}.
Example C170_applies : randperm_ok c170_perm /\ eval_keeps c170_step /\
  (exists obj r g, c170_fit true (Some (c170_flat 3 4)) (Some (c170_y [7; 9; 7]%Z)) c170_new 0%nat = (obj, Ok r, g) /\ option_map (fun t => snd (fst t)) (o_model nat nat obj) = Some 100%nat) /\
  exists obj r g s, c170_fit false (Some (c170_flat 3 4)) (Some (c170_y [7; 9; 7]%Z)) c170_new 0%nat = (obj, Ok r, g) /\ snd (c170_scores false obj (Some (c170_flat 2 4))) = Ok s /\ option_map (fun t => snd (fst t)) (o_model nat nat obj) = Some 104%nat.
Proof.
  split; [intros g n; symmetry; apply Permutation_rev|]. split; [intros E b h o g; do 2 eexists; reflexivity|]. split; [do 3 eexists; split; vm_compute; reflexivity|]. do 4 eexists. split; [vm_compute; reflexivity|]. split; vm_compute; reflexivity.
Qed.

(* a second fit on flat rows does not read them in the input_shape of the classifier but in the shape the first fit left *)
Theorem C170_refit_refuted : exists obj r g obj1 r1 g1 obj2 r2 g2,
  c170_fit true (Some (c170_square 2)) (Some (c170_y [7; 9]%Z)) c170_new 0%nat = (obj, Ok r, g) /\
  c170_fit true (Some (c170_flat 2 4)) (Some (c170_y [7; 9]%Z)) obj g = (obj1, Ok r1, g1) /\ c170_fit true (Some (c170_flat 2 4)) (Some (c170_y [7; 9]%Z)) c170_new g = (obj2, Ok r2, g2) /\
  o_known nat nat obj1 = Some (1, 2, 2)%nat /\ o_known nat nat obj2 = Some (1, 1, 4)%nat /\ s_shape (c170_sp true) = Some [1; 4]%nat.
Proof. do 9 eexists. repeat (split; [vm_compute; reflexivity|]). vm_compute. reflexivity. Qed.
Print Assumptions C170_refit_refuted.

(* a fit that is refused for its number of labels leaves a classifier that answers, with an untrained network and the labels of the refused fit *)
Theorem C170_failed_fit_refuted : exists obj x g s classes,
  c170_fit false (Some (c170_flat 3 4)) (Some (c170_y [1; 2]%Z)) c170_new 0%nat = (obj, Err x, g) /\ snd (c170_scores false c170_new (Some (c170_flat 2 4))) = Err RuntimeError /\
  snd (c170_scores false obj (Some (c170_flat 2 4))) = Ok s /\ o_classes nat nat obj = Some (classes, 0%Z) /\ classes = [1; 2]%Z /\ option_map (fun t => snd (fst t)) (o_model nat nat obj) = Some 100%nat.
Proof. do 5 eexists. repeat (split; [vm_compute; reflexivity|]). vm_compute. reflexivity. Qed.
Print Assumptions C170_failed_fit_refuted.
