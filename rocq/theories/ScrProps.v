(* C171: the LSTM and the audio network that are built inside fit. *)
From Coq Require Import Arith QArith Permutation Lia.
From Verif Require Import Prelude SupervisedModel SupervisedSpec SupervisedProofs TclfModel TclfSpec TclfProofs ScrModel ScrSpec ScrProofs.
Local Open Scope list_scope.
Local Notation length := List.length.

(* what is read: two dimensions of ids, cut towards zero; images of waveforms with or without channels; never no rows *)
Theorem C171_rows : forall k x,
  ((exists p, prepare k x = Ok p) <-> exists n f, readable k x n f) /\
  forall rows f, prepare k x = Ok (rows, f) -> readable k x (length rows) f /\ forall i, (i < length rows)%nat -> exists r, nth_error rows i = Some r /\ row_of k x i r.
Proof. intros k x. split; [apply prepare_can|]. intros rows f. apply prepare_ok. Qed.
Print Assumptions C171_rows.

(* part i of the data holds its values from i times the size on *)
Theorem C171_values : forall size i data j, nth_error (part_of size i data) j = if Nat.ltb j size then nth_error data (i * size + j) else None.
Proof.
  intros size i data j. unfold part_of. assert (F : forall (l : list Q) n j, nth_error (firstn n l) j = if Nat.ltb j n then nth_error l j else None).
  { induction l as [|a l IH]; intros n k; [rewrite firstn_nil; destruct (Nat.ltb k n); destruct k; reflexivity|]. destruct n as [|n]; [destruct k; reflexivity|]. destruct k as [|k]; [reflexivity|]. exact (IH n k). }
  rewrite F. destruct (Nat.ltb j size); [|reflexivity]. generalize (i * size)%nat as n. intros n. revert n. induction data as [|a data IH]; intros [|n]; cbn; try reflexivity; [destruct j; reflexivity|apply IH].
Qed.
Print Assumptions C171_values.

(* the audio network: from one channel through doubling numbers of channels; every kernel is 3, whatever kernel_size says *)
Lemma convolutions_ok b : forall c f l last, convolutions b c f = (l, last) ->
  length l = b /\ (forall j, (j < b)%nat -> nth_error l j = Some ((match j with O => c | S i => f * 2 ^ i end)%nat, (f * 2 ^ j)%nat, 3%nat)) /\ last = match b with O => c | S i => (f * 2 ^ i)%nat end.
Proof.
  induction b as [|b IH]; intros c f l last; cbn [convolutions].
  - intros [= <- <-]. repeat split. intros; lia.
  - destruct (convolutions b f (2 * f)) as [l' last'] eqn:E. intros [= <- <-]. destruct (IH _ _ _ _ E) as (H1 & H2 & H3). split; [cbn; lia|]. split.
    + intros [|j] Hj; cbn [nth_error]; [f_equal; f_equal; f_equal; cbn; lia|]. rewrite H2 by lia. f_equal. f_equal. f_equal.
      * destruct j as [|j]; cbn; [lia|]. lia.
      * rewrite Nat.pow_succ_r'. lia.
    + rewrite H3. destruct b as [|b]; [cbn; lia|]. rewrite Nat.pow_succ_r'. lia.
Qed.
Theorem C171_network : forall sp base blocks classes, s_kind sp = Audio base blocks ->
  exists l c, network_of (s_kind sp) classes = AudioNet l c classes /\ length l = blocks /\
  (forall j, (j < blocks)%nat -> nth_error l j = Some ((match j with O => 1 | S i => base * 2 ^ i end)%nat, (base * 2 ^ j)%nat, 3%nat)) /\ c = match blocks with O => 1%nat | S i => (base * 2 ^ i)%nat end.
Proof.
  intros sp base blocks classes E. rewrite E. cbn [network_of]. destruct (convolutions blocks 1 base) as [l c] eqn:Ec. exists l, c. split; [reflexivity|]. exact (convolutions_ok _ _ _ _ _ Ec).
Qed.
Print Assumptions C171_network.
Example C171_network_applies : network_of (Audio 32 3) 10 = AudioNet [(1, 32, 3); (32, 64, 3); (64, 128, 3)]%nat 128 10.
Proof. reflexivity. Qed.

Section Fit.
Context {W Op G R : Type}.
Variable seed_all : Z -> G.
Variable own : Z -> R.
Variable order : nat -> option R * G -> list nat * (option R * G).
Variable build : network -> G -> W * G.
Variable opt : W -> Op.
Variable step : list (row * nat) -> W * Op * G -> W * Op * G.
Variable logits : W -> row -> list Q.
Variable softmax : list Q -> list Q.
Variable argmax : list Q -> nat.
Local Notation fit := (fit W Op G R seed_all own order build opt step).
Local Notation scores := (scores W logits softmax).
Local Notation predict := (predict W logits softmax argmax).
Local Notation start sp g := (match s_seed sp with Some s => seed_all s | None => g end).
Local Notation loader sp := (match s_seed sp with Some s => Some (own s) | None => None end).

(* what a fit accepts before it builds anything *)
Definition given (sp : settings) (cuda : bool) (X y : raw) (dev : Z) : Prop := (exists f, readable (s_kind sp) X (length (r_data y)) f) /\ on_device cuda (s_jobs sp) X y dev.
Lemma accepted sp cuda X y rows f l dev :
  (do ' (rows, features) <- prepare (s_kind sp) X; do l <- prepare_y y;
         if negb (Nat.eqb (length rows) (length l)) then Err SupervisedError else do dev <- fit_device cuda (s_jobs sp) X y; Ok (rows, features, l, dev)) = Ok (rows, f, l, dev) <->
  prepare (s_kind sp) X = Ok (rows, f) /\ prepare_y y = Ok l /\ length rows = length l /\ fit_device cuda (s_jobs sp) X y = Ok dev.
Proof.
  split.
  - destruct (prepare (s_kind sp) X) as [[rows' f']|]; [|discriminate]. cbn [bind]. destruct (prepare_y y) as [l'|]; [|discriminate]. cbn [bind]. destruct (Nat.eqb_spec (length rows') (length l')) as [E|]; cbn [negb]; [|discriminate].
    destruct (fit_device cuda (s_jobs sp) X y) as [d|]; [|discriminate]. cbn [bind]. intros [= <- <- <- <-]. auto.
  - intros (-> & -> & E & ->). cbn [bind]. rewrite E, Nat.eqb_refl. reflexivity.
Qed.
Lemma readable_pos k x n f : readable k x n f -> (0 < n)%nat. Proof. intros H. destruct H; assumption. Qed.
Lemma readable_rows k x n f : readable k x n f -> exists rows, prepare k x = Ok (rows, f) /\ length rows = n.
Proof.
  intros H. destruct H as [v x n l E Hn|b k x n f t E Hn|b k x n c f t E Hn]; cbn [prepare]; rewrite E; destruct (Nat.eqb_spec n 0); try lia; eexists; (split; [reflexivity|]); rewrite map_length, seq_length; reflexivity.
Qed.
Lemma given_ok sp cuda X y dev : given sp cuda X y dev <-> exists rows f l, prepare (s_kind sp) X = Ok (rows, f) /\ prepare_y y = Ok l /\ length rows = length l /\ fit_device cuda (s_jobs sp) X y = Ok dev.
Proof.
  unfold given. split.
  - intros ((f & Hr) & Hd). destruct (readable_rows _ _ _ _ Hr) as (rows & HP & HL). exists rows, f, (map truncate (r_data y)). split; [exact HP|]. split; [apply prepare_y_ok; split; [|reflexivity]|split; [rewrite map_length; exact HL|apply device_ok; exact Hd]].
    intros E. apply readable_pos in Hr. rewrite E in Hr. cbn in Hr. lia.
  - intros (rows & f & l & HP & HY & HL & HD). apply prepare_y_ok in HY. destruct HY as [_ ->]. rewrite map_length in HL. split; [|apply device_ok; exact HD]. exists f. rewrite <- HL. exact (proj1 (prepare_ok _ _ _ _ HP)).
Qed.

(* what is refused before anything is built leaves the classifier as it was *)
Theorem C171_refused : forall sp cuda X y obj g, (forall dev, ~ given sp cuda X y dev) -> fit sp cuda X y obj g = (obj, Err SupervisedError, start sp g).
Proof.
  intros sp cuda X y obj g H. unfold ScrModel.fit.
  destruct (do ' (rows, features) <- prepare (s_kind sp) X; do l <- prepare_y y; if negb (Nat.eqb (length rows) (length l)) then Err SupervisedError else do dev <- fit_device cuda (s_jobs sp) X y; Ok (rows, features, l, dev)) as [[[[rows f] l] dev]|e] eqn:E.
  - apply accepted in E. exfalso. apply (H dev). apply given_ok. eauto.
  - f_equal. f_equal. f_equal. revert E. unfold prepare, prepare_y, fit_device.
    destruct (match s_kind sp, r_shape X with Lstm _, _ => _ | _, _ => _ end) as [[a b]|e'] eqn:E1; cbn [bind].
    + destruct (r_data y); cbn [bind]; [congruence|]. destruct (negb (Nat.eqb _ _)); [congruence|]. destruct (r_tensor X && r_tensor y && negb (r_dev X =? r_dev y)%Z); cbn [bind]; [congruence|]. destruct (r_tensor X); [discriminate|]. destruct (r_tensor y); [discriminate|].
      destruct (cuda && _); discriminate.
    + intros [= <-]. destruct (s_kind sp); destruct (r_shape X) as [|? [|? [|? [|? [|? ?]]]]]; try congruence; destruct (Nat.eqb _ _); congruence.
Qed.

(* a fit succeeds exactly on such input, with a dropout between 0 and 1, no negative rate or decay, positive batches and, if there is an epoch, rows the network can score *)
Theorem C171_fit_iff : order_ok order -> forall sp cuda X y obj g,
  (exists obj' r g', fit sp cuda X y obj g = (obj', Ok r, g')) <->
  (exists dev, given sp cuda X y dev) /\ (0 <= s_dropout sp <= 1)%Q /\ (0 <= s_lr sp)%Q /\ (0 <= s_decay sp)%Q /\ (0 < s_batch sp)%Z /\
  ((0 < s_epochs sp)%Z -> forall rows f r, prepare (s_kind sp) X = Ok (rows, f) -> In r rows -> scorable (s_kind sp) r).
Proof.
  intros HO sp cuda X y obj g. unfold ScrModel.fit. split.
  - intros (obj' & r & g' & HF).
    destruct (do ' (rows, features) <- prepare (s_kind sp) X; do l <- prepare_y y; if negb (Nat.eqb (length rows) (length l)) then Err SupervisedError else do dev <- fit_device cuda (s_jobs sp) X y; Ok (rows, features, l, dev)) as [[[[rows f] l] dev]|e] eqn:E; [|discriminate].
    apply accepted in E. destruct E as (HP & HY & HL & HD). destruct (encode_labels l) as [codes classes] eqn:EE. unfold inside in HF.
    destruct (Qle_bool 0 (s_dropout sp)) eqn:Q1; cbn [andb negb] in HF; [|discriminate]. destruct (Qle_bool (s_dropout sp) 1) eqn:Q2; cbn [negb] in HF; [|discriminate]. destruct (build _ _) as [w g1].
    destruct (Qle_bool 0 (s_lr sp)) eqn:Q3; cbn [andb negb] in HF; [|discriminate]. destruct (Qle_bool 0 (s_decay sp)) eqn:Q4; cbn [andb negb] in HF; [|discriminate]. destruct (Z.ltb_spec 0 (s_batch sp)) as [HB|]; cbn [negb] in HF; [|discriminate].
    apply Qle_bool_iff in Q1, Q2, Q3, Q4. split; [exists dev; apply given_ok; eauto 8|]. do 4 (split; [auto|]). intros He rows' f' r' HP' Hr'. rewrite HP in HP'. injection HP' as <- <-.
    destruct (train_ok order step (s_kind sp) X rows f l classes codes HP EE HL HO (Z.to_nat (s_batch sp)) ltac:(lia) (Z.to_nat (s_epochs sp)) (loader sp) (w, opt w, g1)) as [T1 _].
    destruct (train W Op G R order step (s_kind sp) (Z.to_nat (s_batch sp)) (combine rows codes) (Z.to_nat (s_epochs sp)) (loader sp) (w, opt w, g1)) as [[[w' o'] g2] [[]|e]]; [|discriminate]. apply (proj1 T1 eq_refl); [lia|exact Hr'].
  - intros ((dev & HG) & [Q1 Q2] & Q3 & Q4 & HB & HS). apply given_ok in HG. destruct HG as (rows & f & l & HP & HY & HL & HD). rewrite (proj2 (accepted sp cuda X y rows f l dev) (conj HP (conj HY (conj HL HD)))).
    destruct (encode_labels l) as [codes classes] eqn:EE. unfold inside. apply Qle_bool_iff in Q1, Q2, Q3, Q4. rewrite Q1, Q2, Q3, Q4, (proj2 (Z.ltb_lt _ _) HB). cbn [andb negb]. destruct (build _ _) as [w g1].
    destruct (train_ok order step (s_kind sp) X rows f l classes codes HP EE HL HO (Z.to_nat (s_batch sp)) ltac:(lia) (Z.to_nat (s_epochs sp)) (loader sp) (w, opt w, g1)) as [T1 _].
    destruct (train W Op G R order step (s_kind sp) (Z.to_nat (s_batch sp)) (combine rows codes) (Z.to_nat (s_epochs sp)) (loader sp) (w, opt w, g1)) as [[[w' o'] g2] rr]. cbn [snd] in T1.
    rewrite (proj2 T1) by (intros Hn r Hr; apply (HS ltac:(lia) rows f r HP Hr)). eauto.
Qed.

(* what a successful fit has done: a new network for the classes, trained on every row once in every epoch, each with the position of its label *)
Theorem C171_training : order_ok order -> forall sp cuda X y obj g obj' r g', fit sp cuda X y obj g = (obj', Ok r, g') ->
  exists dev l classes w g1 w' o', given sp cuda X y dev /\ length l = length (r_data y) /\ (forall i, (i < length l)%nat -> cut_to (nth i (r_data y) 0%Q) (nth i l 0%Z)) /\ labels_of l classes /\
    build (network_of (s_kind sp) (length classes)) (start sp g) = (w, g1) /\
    trained order step (s_kind sp) (Z.to_nat (s_batch sp)) X l classes (Z.to_nat (s_epochs sp)) (loader sp) (w, opt w, g1) (w', o', g') /\
    obj' = {| o_model := Some (w', dev); o_classes := Some classes |} /\ rp_samples r = length l /\ rp_classes r = length classes /\ readable (s_kind sp) X (length l) (rp_features r).
Proof.
  intros HO sp cuda X y obj g obj' r g' HF. assert (HI := proj1 (C171_fit_iff HO sp cuda X y obj g) ltac:(eauto)). destruct HI as (_ & _ & _ & _ & HB0 & _). unfold ScrModel.fit in HF.
  destruct (do ' (rows, features) <- prepare (s_kind sp) X; do l <- prepare_y y; if negb (Nat.eqb (length rows) (length l)) then Err SupervisedError else do dev <- fit_device cuda (s_jobs sp) X y; Ok (rows, features, l, dev)) as [[[[rows f] l] dev]|e] eqn:E; [|discriminate].
  apply accepted in E. destruct E as (HP & HY & HL & HD). destruct (encode_labels l) as [codes classes] eqn:EE. destruct (inside (s_dropout sp)); cbn [negb] in HF; [|discriminate]. destruct (build _ _) as [w g1] eqn:EB.
  destruct (Qle_bool 0 (s_lr sp) && Qle_bool 0 (s_decay sp) && (0 <? s_batch sp)%Z); cbn [negb] in HF; [|discriminate].
  destruct (train_ok order step (s_kind sp) X rows f l classes codes HP EE HL HO (Z.to_nat (s_batch sp)) ltac:(lia) (Z.to_nat (s_epochs sp)) (loader sp) (w, opt w, g1)) as [_ T2].
  destruct (train W Op G R order step (s_kind sp) (Z.to_nat (s_batch sp)) (combine rows codes) (Z.to_nat (s_epochs sp)) (loader sp) (w, opt w, g1)) as [[[w' o'] g2] [[]|e]]; [|discriminate]. injection HF as <- <- <-.
  exists dev, l, classes, w, g1, w', o'. cbn. split; [apply given_ok; eauto 8|]. apply prepare_y_ok in HY. destruct HY as [_ HY]. split; [rewrite HY; apply map_length|]. split.
  { intros i Hi. rewrite HY in Hi |- *. rewrite map_length in Hi. rewrite (TbackProofs.nth_map_lt truncate _ i 0%Q 0%Z Hi). apply truncate_cut. }
  split; [exact (proj1 (encode_labels_spec _ _ _ EE))|]. split; [exact EB|]. split; [apply (T2 eq_refl)|]. split; [reflexivity|]. split; [exact HL|]. split; [reflexivity|]. rewrite <- HL. exact (proj1 (prepare_ok _ _ _ _ HP)).
Qed.

(* with a seed the state of the generators before a fit does not matter *)
Theorem C171_seed : forall sp cuda X y obj g g' s, s_seed sp = Some s -> fit sp cuda X y obj g = fit sp cuda X y obj g'.
Proof. intros sp cuda X y obj g g' s E. unfold ScrModel.fit. rewrite E. reflexivity. Qed.

(* kernel_size is accepted and changes nothing *)
Theorem C171_kernel_refuted : forall sp kernel cuda X y obj g,
  fit {| s_kind := s_kind sp; s_kernel := kernel; s_dropout := s_dropout sp; s_lr := s_lr sp; s_decay := s_decay sp; s_batch := s_batch sp; s_epochs := s_epochs sp; s_seed := s_seed sp; s_jobs := s_jobs sp |} cuda X y obj g = fit sp cuda X y obj g.
Proof. reflexivity. Qed.

(* scores: on the device of the model, for readable input of rows the network can score, one list of scores per row *)
Theorem C171_scores : forall sp w dev classes X,
  let obj := {| o_model := Some (w, dev); o_classes := Some classes |} in
  ((exists s, scores sp obj X = Ok s) <-> (exists n f, readable (s_kind sp) X n f) /\ (r_tensor X = true -> r_dev X = dev) /\ forall rows f r, prepare (s_kind sp) X = Ok (rows, f) -> In r rows -> scorable (s_kind sp) r) /\
  (forall s, scores sp obj X = Ok s -> exists rows f, prepare (s_kind sp) X = Ok (rows, f) /\ s = map (fun r => softmax (logits w r)) rows).
Proof.
  intros sp w dev classes X obj. unfold ScrModel.scores, obj. cbn [o_model o_classes]. rewrite <- prepare_can. destruct (prepare (s_kind sp) X) as [[rows f]|e] eqn:EP; cbn [bind].
  - destruct (r_tensor X && negb (r_dev X =? dev)%Z) eqn:ED.
    + split; [|discriminate]. split; [intros [s Hs]; discriminate|]. intros (_ & H & _). apply andb_prop in ED. destruct ED as [E1 E2]. rewrite (H E1), Z.eqb_refl in E2. discriminate.
    + destruct (forward_all (s_kind sp) rows) as [[]|e] eqn:EF; cbn [bind].
      * split; [|intros s [= <-]; eauto]. split; [|eauto]. intros _. split; [eauto|]. split.
        -- intros Ht. rewrite Ht in ED. cbn [andb] in ED. apply Bool.negb_false_iff, Z.eqb_eq in ED. exact ED.
        -- intros rows' f' r [= <- <-] Hr. apply (proj1 (forward_all_ok _ _) EF), Hr.
      * split; [|discriminate]. split; [intros [s Hs]; discriminate|]. intros (_ & _ & H). assert (EF' : forward_all (s_kind sp) rows = Ok tt) by (apply forward_all_ok; intros r Hr; apply (H rows f r eq_refl Hr)). congruence.
  - split; [|discriminate]. split; [intros [s Hs]; discriminate|]. intros ([p Hp] & _). discriminate.
Qed.

(* predictions: for every row a class with the highest score *)
Theorem C171_predict : argmax_ok argmax -> (forall w x, softmax (logits w x) <> []) -> forall sp obj X s, scores sp obj X = Ok s ->
  exists classes labels, o_classes W obj = Some classes /\ predict sp obj X = Ok labels /\ length labels = length s /\
  forall i q, nth_error s i = Some q -> exists j, (j < length q)%nat /\ nth_error labels i = Some (nth j classes 0%Z) /\ forall v, In v q -> (v <= nth j q 0)%Q.
Proof.
  intros HA HS sp [[[w dev]|] [classes|]] X s H; try discriminate. unfold ScrModel.predict. rewrite H. cbn [bind o_classes]. exists classes, (map (fun p => nth (argmax p) classes 0%Z) s). do 2 (split; [reflexivity|]). split; [apply map_length|].
  intros i q Hq. destruct (proj2 (C171_scores sp w dev classes X) s H) as (rows & f & _ & ->). assert (Hin := nth_error_In _ _ Hq). apply in_map_iff in Hin. destruct Hin as (r & <- & _). exists (argmax (softmax (logits w r))).
  destruct (HA _ (HS w r)) as [A1 A2]. split; [exact A1|]. split; [|exact A2]. rewrite nth_error_map, Hq. reflexivity.
Qed.
(* a classifier that was never fitted does not answer *)
Theorem C171_unfitted : forall sp obj X, o_model W obj = None \/ o_classes W obj = None -> scores sp obj X = Err RuntimeError /\ predict sp obj X = Err RuntimeError.
Proof. intros sp [[[w dev]|] [classes|]] X [H|H]; try discriminate; split; reflexivity. Qed.
End Fit.
Print Assumptions C171_refused.
Print Assumptions C171_fit_iff.
Print Assumptions C171_training.
Print Assumptions C171_seed.
Print Assumptions C171_kernel_refuted.
Print Assumptions C171_scores.
Print Assumptions C171_predict.
Print Assumptions C171_unfitted.

Local Open Scope Q_scope.
(* an instance: weights count the steps *)
Definition c171_order (n : nat) (s : option nat * nat) : list nat * (option nat * nat) := (rev (seq 0 n), s).
Definition c171_sp (k : kind) (kernel epochs : Z) : settings := {| s_kind := k; s_kernel := kernel; s_dropout := 1 # 2; s_lr := 1; s_decay := 0; s_batch := 2%Z; s_epochs := epochs; s_seed := Some 0%Z; s_jobs := None |}.
Definition c171_fit k kernel epochs := fit nat nat nat nat Z.to_nat Z.to_nat c171_order (fun _ g => (0%nat, S g)) (fun _ => 0%nat) (fun E '(w, o, g) => (S w, o, g)) (c171_sp k kernel epochs).
Definition c171_scores k := scores nat (fun w r => [inject_Z (Z.of_nat w); 0]) (fun l => l) (c171_sp k 3 1).
Definition c171_new : object nat := {| o_model := None; o_classes := None |}.
Definition c171_raw (s : list nat) (l : list Q) : raw := {| r_tensor := false; r_dev := 0%Z; r_shape := s; r_data := l |}.
Example C171_applies : order_ok c171_order /\
  (exists obj r g, c171_fit (Lstm 5) 3 2 false (c171_raw [3; 2]%nat [1; 2; 3; 4; 0; 1]) (c171_raw [3]%nat [7; 9; 7]) c171_new 0%nat = (obj, Ok r, g) /\ option_map fst (o_model nat obj) = Some 4%nat /\ o_classes nat obj = Some [7; 9]%Z) /\
  exists obj r g, c171_fit (Audio 2 1) 3 1 false (c171_raw [1; 2; 2]%nat [1; 2; 3; 4]) (c171_raw [1]%nat [7]) c171_new 0%nat = (obj, Ok r, g).
Proof. split; [intros n s; symmetry; apply Permutation_rev|]. split; [do 3 eexists; split; [vm_compute; reflexivity|split; vm_compute; reflexivity]|do 3 eexists; vm_compute; reflexivity]. Qed.

(* a fit that fails on a token outside the vocabulary leaves a network that answers, with the labels of the failed fit *)
Theorem C171_failed_fit_refuted : exists obj g s X,
  c171_fit (Lstm 5) 3 2 false (c171_raw [2; 2]%nat [1; 5; 3; 4]) (c171_raw [2]%nat [7; 9]) c171_new 0%nat = (obj, Err IndexError, g) /\
  c171_scores (Lstm 5) c171_new X = Err RuntimeError /\ c171_scores (Lstm 5) obj X = Ok s /\ option_map fst (o_model nat obj) = Some 0%nat /\ o_classes nat obj = Some [7; 9]%Z.
Proof. do 3 eexists. exists (c171_raw [1; 1]%nat [1]). repeat (split; [vm_compute; reflexivity|]). vm_compute. reflexivity. Qed.
Print Assumptions C171_failed_fit_refuted.

(* no epochs, or fewer than none, are no error: the untrained network counts as fitted *)
Theorem C171_no_epochs_refuted : forall epochs, (epochs <= 0)%Z -> exists obj r g, c171_fit (Lstm 5) 3 epochs false (c171_raw [2; 2]%nat [1; 99; 3; 4]) (c171_raw [2]%nat [7; 9]) c171_new 0%nat = (obj, Ok r, g) /\ option_map fst (o_model nat obj) = Some 0%nat.
Proof.
  intros epochs He. unfold c171_fit, fit, c171_sp. cbn [s_epochs s_kind s_seed s_jobs s_dropout s_lr s_decay s_batch]. replace (Z.to_nat epochs) with 0%nat by lia. do 3 eexists. split; vm_compute; reflexivity.
Qed.
Print Assumptions C171_no_epochs_refuted.

(* labels that are not integers are cut: two classes become one *)
Theorem C171_labels_refuted : exists obj r g, c171_fit (Lstm 5) 3 1 false (c171_raw [2; 1]%nat [1; 2]) (c171_raw [2]%nat [1 # 4; 3 # 4]) c171_new 0%nat = (obj, Ok r, g) /\ rp_classes r = 1%nat /\ o_classes nat obj = Some [0%Z].
Proof. do 3 eexists. split; [vm_compute; reflexivity|]. split; vm_compute; reflexivity. Qed.
Print Assumptions C171_labels_refuted.

