(* Proofs for C145 and C146. *)
From Coq Require Import QArith Permutation Lqa ZifyBool ZifyNat.
From Verif Require Import Prelude ListFacts QFacts SupervisedModel SupervisedSpec SupervisedProofs TransProofs TclfModel TclfSpec.
Local Open Scope list_scope.
Local Notation length := List.length.

(* ---- batches *)
Lemma batches_spec size : (0 < size)%nat -> forall fuel l, (length l <= fuel)%nat ->
  concat (batches fuel size l) = l /\ (forall b, In b (batches fuel size l) -> (0 < length b <= size)%nat) /\ forall j, (S j < length (batches fuel size l))%nat -> length (nth j (batches fuel size l) []) = size.
Proof.
  intros Hs. induction fuel as [|fuel IH]; intros l Hl.
  - destruct l; [|cbn in Hl; lia]. split; [reflexivity|]. split; [intros b []|]. cbn. lia.
  - destruct l as [|a l]; [split; [reflexivity|]; split; [intros b []|]; cbn; lia|]. cbn [batches].
    destruct (IH (skipn size (a :: l))) as (H1 & H2 & H3); [rewrite skipn_length; cbn [length] in *; lia|]. split; [cbn [concat]; rewrite H1; apply firstn_skipn|]. split.
    + intros b [<-|Hb]; [rewrite firstn_length; cbn [length]; lia|now apply H2].
    + intros [|j] Hj; cbn [nth].
      * rewrite firstn_length. cbn [length]. destruct (Nat.le_gt_cases size (S (length l))) as [H|H]; [lia|]. exfalso. rewrite (skipn_all2 (n := size) (a :: l)) in Hj by (cbn [length]; lia). destruct fuel; cbn in Hj; lia.
      * apply H3. cbn [length] in Hj. lia.
Qed.

Section Train.
Variables W Op G : Type.
Variable randperm : G -> nat -> list nat * G.
Variable step : list (sample * nat) -> W -> Op -> G -> W * Op * G.
Hypothesis Hp : randperm_ok randperm.
Variable t : tensor.
Variable y : list Z.
Hypothesis Hn : t_n t = length y.
Let codes := fst (encode_labels y).
Let classes := snd (encode_labels y).
Let data := combine (samples t) codes.
Lemma codes_length : length codes = length y.
Proof using Type. unfold codes, encode_labels. cbn [fst]. apply map_length. Qed.
Lemma data_length : length data = length y.
Proof. unfold data. rewrite combine_length, codes_length. unfold samples. rewrite map_length, seq_length. lia. Qed.
Lemma data_reads i : (i < length y)%nat -> reads t y classes i (nth i data (([], []), O)).
Proof.
  intros Hi. unfold data. rewrite combine_nth by (rewrite codes_length; unfold samples; now rewrite map_length, seq_length). unfold reads. cbn [fst snd]. split; [lia|]. split.
  - unfold samples. rewrite (nth_map_in _ _ i O) by (rewrite seq_length; lia). rewrite seq_nth by lia. reflexivity.
  - assert (HE : encode_labels y = (codes, classes)) by (unfold codes, classes; apply surjective_pairing). apply encode_labels_spec in HE as (_ & _ & HE). now apply HE.
Qed.
Lemma steps_stepped : forall bs w o g, (forall b i, In b bs -> In i b -> (i < length y)%nat) -> stepped step t y classes bs (w, o, g) (steps W Op G step data bs w o g).
Proof.
  induction bs as [|b bs IH]; intros w o g Hb; [constructor|]. cbn [steps]. destruct (step (map (fun i => nth i data (([], []), O)) b) w o g) as [[w' o'] g'] eqn:E.
  econstructor; [|rewrite E; apply IH; intros b' i Hb' Hi; apply (Hb b' i); [now right|exact Hi]].
  assert (HB : forall i, In i b -> (i < length y)%nat) by (intros i Hi; apply (Hb b i); [now left|exact Hi]). clear E Hb. induction b as [|i b IHb]; cbn [map]; [constructor|]. constructor; [apply data_reads, HB; now left|apply IHb; intros j Hj; apply HB; now right].
Qed.
Lemma train_trained size : (0 < size)%nat -> forall fuel w o g, trained randperm step size t y classes fuel (w, o, g) (train W Op G randperm step size data fuel w o g).
Proof.
  intros Hs. induction fuel as [|fuel IH]; intros w o g; [constructor|]. cbn [train]. rewrite data_length. assert (HP := Hp g (length y)). destruct (randperm g (length y)) as [order g'] eqn:E. cbn [fst] in HP.
  assert (HL : length order = length y) by (rewrite (Permutation_length HP); apply seq_length). destruct (batches_spec size Hs (length y) order ltac:(lia)) as (B1 & B2 & B3).
  destruct (steps W Op G step data (batches (length y) size order) w o g') as [[w' o'] g''] eqn:ES.
  apply (trained_epoch _ _ _ _ _ _ _ _ _ _ (batches (length y) size order) (w', o', g'')); [split; [rewrite B1; exact HP|]; now split|now rewrite E, B1| |apply IH].
  rewrite E. cbn [snd]. rewrite <- ES. apply steps_stepped. intros b i Hb Hi. assert (HI : In i order) by (rewrite <- B1; apply in_concat; now exists b). apply (Permutation_in _ HP), in_seq in HI. lia.
Qed.
(* the number of outputs stays *)
Variable outputs : W -> nat.
Hypothesis Ho : forall b w o g, outputs (fst (fst (step b w o g))) = outputs w.
Lemma steps_outputs : forall bs w o g, outputs (fst (fst (steps W Op G step data bs w o g))) = outputs w.
Proof. induction bs as [|b bs IH]; intros w o g; [reflexivity|]. cbn [steps]. assert (H := Ho (map (fun i => nth i data (([], []), O)) b) w o g). destruct (step (map (fun i => nth i data (([], []), O)) b) w o g) as [[w' o'] g']. cbn [fst] in H. now rewrite IH. Qed.
Lemma train_outputs size : forall fuel w o g, outputs (fst (fst (train W Op G randperm step size data fuel w o g))) = outputs w.
Proof.
  induction fuel as [|fuel IH]; intros w o g; [reflexivity|]. cbn [train]. destruct (randperm g (length data)) as [order g']. assert (H := steps_outputs (batches (length data) size order) w o g'). destruct (steps W Op G step data (batches (length data) size order) w o g') as [[w' o'] g'']. cbn [fst] in H. now rewrite IH.
Qed.
End Train.

(* ---- relabelling *)
Lemma unique_map f l : (forall a b, (a < b)%Z -> (f a < f b)%Z) -> uniqueZ (map f l) = map f (uniqueZ l).
Proof.
  intros Hf. apply ascending_ext; [apply uniqueZ_ascending| |intros x; rewrite uniqueZ_In, !in_map_iff; split; intros (a & <- & Ha); exists a; (split; [reflexivity|]); now apply uniqueZ_In].
  assert (H := uniqueZ_ascending l). induction H as [|a r Hr IH Ha]; cbn [map]; constructor; [exact IH|]. apply Forall_forall. intros x Hx. apply in_map_iff in Hx as (b & <- & Hb). apply Hf. rewrite Forall_forall in Ha. now apply Ha.
Qed.
Lemma encode_map f y : (forall a b, (a < b)%Z -> (f a < f b)%Z) -> encode_labels (map f y) = (fst (encode_labels y), map f (snd (encode_labels y))).
Proof.
  intros Hf. unfold encode_labels. cbn [fst snd]. rewrite (unique_map f y Hf). f_equal. rewrite map_map. apply map_ext. intros v. unfold searchsorted. generalize (uniqueZ y). intros l.
  induction l as [|a l IH]; [reflexivity|]. cbn [map filter]. assert (HB : (f a <? f v)%Z = (a <? v)%Z) by (destruct (Z.lt_trichotomy a v) as [H|[->|H]]; [assert (HH := Hf _ _ H); lia|lia|assert (HH := Hf _ _ H); lia]).
  rewrite HB. destruct (a <? v)%Z; cbn [length]; now rewrite IH.
Qed.

(* ---- shapes *)
Lemma as_2d_ok x t : as_2d x = Ok t -> flattened x t.
Proof.
  unfold as_2d, flattened, t_n. destruct (t_shape x) as [|n [|d [|e r]]] eqn:E; [discriminate|intros [= <-]|intros [= <-]|].
  - cbn [reshaped t_shape t_data t_dev hd tl]. split; [discriminate|]. repeat split.
  - rewrite E. cbn [hd tl]. unfold volume. cbn [fold_right]. rewrite Nat.mul_1_r. split; [discriminate|]. repeat split.
  - destruct (Nat.eqb_spec n 0); [discriminate|]. intros [= <-]. cbn [reshaped t_shape t_data t_dev hd tl]. split; [discriminate|]. repeat split.
Qed.
Lemma flattened_volume x t : flattened x t -> t_n t = t_n x /\ volume (t_shape t) = volume (t_shape x) /\ hd O (tl (t_shape t)) = volume (tl (t_shape x)).
Proof. intros (H0 & H1 & _). unfold t_n at 1. rewrite H1. cbn [hd tl]. split; [reflexivity|]. split; [|reflexivity]. unfold t_n. destruct (t_shape x) as [|n r]; [congruence|]. cbn [hd tl]. unfold volume. cbn [fold_right]. now rewrite Nat.mul_1_r. Qed.
Lemma as_2d_returns x : volume (t_shape x) <> O -> t_shape x <> [] -> exists t, as_2d x = Ok t.
Proof.
  unfold as_2d. destruct (t_shape x) as [|n [|d [|e r]]]; intros H HS; [congruence|eexists; reflexivity|eexists; reflexivity|]. destruct (Nat.eqb_spec n 0) as [->|]; [cbn in H; lia|eexists; reflexivity].
Qed.
Lemma flat_map_block {A B} (f : A -> list B) k : forall l i j d d', (forall a, In a l -> length (f a) = k) -> (i < length l)%nat -> (j < k)%nat -> nth (i * k + j) (flat_map f l) d = nth j (f (nth i l d')) d.
Proof.
  induction l as [|a l IH]; intros i j d d' Hk Hi Hj; [cbn in Hi; lia|]. cbn [flat_map]. assert (Ha : length (f a) = k) by (apply Hk; now left). destruct i as [|i]; cbn [nth].
  - rewrite app_nth1 by lia. f_equal; lia.
  - rewrite app_nth2 by nia. replace (S i * k + j - length (f a))%nat with (i * k + j)%nat by nia. apply IH; [intros x Hx; apply Hk; now right|cbn [length] in Hi; lia|exact Hj].
Qed.
Lemma flat_map_len {A B} (f : A -> list B) k : forall l, (forall a, In a l -> length (f a) = k) -> length (flat_map f l) = (length l * k)%nat.
Proof. induction l as [|a l IH]; intros Hk; [reflexivity|]. cbn [flat_map length]. rewrite app_length, IH by (intros x Hx; apply Hk; now right). rewrite Hk by now left. lia. Qed.
Lemma transposed_at n a b t i r c : (i < n)%nat -> (r < a)%nat -> (c < b)%nat -> at3 (transposed n a b t) b a i c r = at3 t a b i r c.
Proof.
  intros Hi Hr Hc. unfold at3. unfold transposed. cbn [t_data]. replace (i * (b * a) + c * a + r)%nat with (i * (b * a) + (c * a + r))%nat by lia.
  rewrite (flat_map_block _ (b * a)%nat (seq 0 n) i (c * a + r) 0%Q O); [|intros x _; rewrite (flat_map_len _ a); [now rewrite seq_length|intros q _; now rewrite map_length, seq_length]|now rewrite seq_length|nia].
  rewrite seq_nth by exact Hi. cbn [Nat.add]. rewrite (flat_map_block _ a (seq 0 b) c r 0%Q O); [|intros x _; now rewrite map_length, seq_length|now rewrite seq_length|exact Hr].
  rewrite seq_nth by exact Hc. cbn [Nat.add]. rewrite (nth_map_in _ _ r O) by now rewrite seq_length. now rewrite seq_nth by exact Hr.
Qed.
Lemma transposed_filled n a b t : filled (transposed n a b t).
Proof. unfold filled, transposed. cbn [t_data t_shape volume fold_right]. rewrite (flat_map_len _ (b * a)%nat); [rewrite seq_length; lia|]. intros x _. rewrite (flat_map_len _ a); [now rewrite seq_length|]. intros q _. now rewrite map_length, seq_length. Qed.

(* ---- the core of a fit *)
Section Core.
Variables W Op G : Type.
Variable manual_seed : Z -> G.
Variable randperm : G -> nat -> list nat * G.
Variable build : list nat -> G -> W * G.
Variable opt : W -> Op.
Variable step : list (sample * nat) -> W -> Op -> G -> W * Op * G.
Notation core := (fit_core W Op G manual_seed randperm build opt step).
Lemma core_ok sp sf act sizes t y obj g obj' r g' : randperm_ok randperm -> t_n t = length (l_data y) -> (0 < ts_batch sp)%Z -> core sp sf act sizes t y obj g = (obj', Ok r, g') ->
  exists classes w0 g0 w o, labels_of (l_data y) classes /\ build (sizes (length classes)) (if sf then manual_seed (seed_of sp) else g) = (w0, g0) /\
    trained randperm step (Z.to_nat (ts_batch sp)) t (l_data y) classes (Z.to_nat (ts_epochs sp)) (w0, opt w0, if sf then g0 else manual_seed (seed_of sp)) (w, o, g') /\
    obj' = {| tc_model := Some w; tc_width := hd O (tl (t_shape t)); tc_classes := Some (classes, l_dev y); tc_shape := tc_shape W obj; tc_kernels := tc_kernels W obj |} /\
    r = {| fr_samples := t_n t; fr_features := volume (tl (t_shape t)); fr_classes := length classes |} /\
    (forall outputs, (forall sz g, outputs (fst (build sz g)) = last sz O) -> (forall b w o g, outputs (fst (fst (step b w o g))) = outputs w) -> outputs w = last (sizes (length classes)) O).
Proof.
  intros Hp Hn Hb. unfold fit_core. rewrite (surjective_pairing (encode_labels (l_data y))). set (codes := fst (encode_labels (l_data y))). set (classes := snd (encode_labels (l_data y))).
  destruct (act && negb (ts_activation_ok sp)); [discriminate|]. destruct (build (sizes (length classes)) (if sf then manual_seed (seed_of sp) else g)) as [w0 g0] eqn:EB.
  destruct (negb (Qle_bool 0 (ts_lr sp) && Qle_bool 0 (ts_decay sp))); [discriminate|].
  set (s := if sf then g0 else manual_seed (seed_of sp)). destruct (train W Op G randperm step (Z.to_nat (ts_batch sp)) (combine (samples t) codes) (Z.to_nat (ts_epochs sp)) w0 (opt w0) s) as [[w o] g1] eqn:ET.
  intros [= <- <- <-]. exists classes, w0, g0, w, o. split; [unfold classes, encode_labels; cbn [snd]; apply uniqueZ_labels|]. split; [exact EB|].
  split; [rewrite <- ET; apply train_trained; [exact Hp|exact Hn|lia]|]. split; [reflexivity|]. split; [reflexivity|]. intros outputs H1 H2. specialize (H1 (sizes (length classes)) (if sf then manual_seed (seed_of sp) else g)). rewrite EB in H1. cbn [fst] in H1. rewrite <- H1.
  assert (HO := train_outputs W Op G randperm step t (l_data y) outputs H2 (Z.to_nat (ts_batch sp)) (Z.to_nat (ts_epochs sp)) w0 (opt w0) s). fold codes in HO. rewrite ET in HO. exact HO.
Qed.
Lemma core_returns sp sf act sizes t y obj g : (exists obj' r g', core sp sf act sizes t y obj g = (obj', Ok r, g')) <-> (act = true -> ts_activation_ok sp = true) /\ (0 <= ts_lr sp)%Q /\ (0 <= ts_decay sp)%Q.
Proof.
  unfold fit_core. rewrite (surjective_pairing (encode_labels (l_data y))). set (classes := snd (encode_labels (l_data y))).
  destruct act, (ts_activation_ok sp); cbn [andb negb];
    try (split; [intros (? & ? & ? & H); discriminate H|intros (H & _); specialize (H eq_refl); discriminate H]);
    (destruct (build (sizes (length classes)) (if sf then manual_seed (seed_of sp) else g)) as [w0 g0];
     destruct (Qle_bool 0 (ts_lr sp)) eqn:E1; [|split; [intros (? & ? & ? & H); discriminate H|intros (_ & H & _); apply Qle_bool_iff in H; congruence]];
     destruct (Qle_bool 0 (ts_decay sp)) eqn:E2; [|split; [intros (? & ? & ? & H); discriminate H|intros (_ & _ & H); apply Qle_bool_iff in H; congruence]];
     cbn [andb negb]; apply Qle_bool_iff in E1, E2;
     match goal with |- context [train W Op G ?a ?b ?c ?d ?e ?f ?h ?i] => destruct (train W Op G a b c d e f h i) as [[w o] g1] end;
     split; [intros _; split; [intros; solve [assumption|discriminate|reflexivity]|split; assumption]|intros _; eexists _, _, _; reflexivity]).
Qed.
Lemma core_err sp sf act sizes t y obj g obj' e g' : core sp sf act sizes t y obj g = (obj', Err e, g') ->
  obj' = {| tc_model := tc_model W obj; tc_width := tc_width W obj; tc_classes := Some (snd (encode_labels (l_data y)), l_dev y); tc_shape := tc_shape W obj; tc_kernels := tc_kernels W obj |}.
Proof.
  unfold fit_core. rewrite (surjective_pairing (encode_labels (l_data y))). destruct (act && negb (ts_activation_ok sp)); [now intros [= <- _ _]|].
  destruct (build _ _) as [w0 g0]. destruct (negb (Qle_bool 0 (ts_lr sp) && Qle_bool 0 (ts_decay sp))); [now intros [= <- _ _]|]. destruct (train _ _ _ _ _ _ _ _ _ _ _) as [[w o] g1]. discriminate.
Qed.
(* a seed set before the network is built decides everything *)
Lemma core_seed sp act sizes t y obj g g' : core sp true act sizes t y obj g = core sp true act sizes t y obj g'.
Proof. reflexivity. Qed.
Definition renamed (f : Z -> Z) (obj : tclf W) : tclf W :=
  {| tc_model := tc_model W obj; tc_width := tc_width W obj; tc_classes := match tc_classes W obj with Some (c, d) => Some (map f c, d) | None => None end; tc_shape := tc_shape W obj; tc_kernels := tc_kernels W obj |}.
Lemma core_relabel f sp sf act sizes t y obj g : (forall a b, (a < b)%Z -> (f a < f b)%Z) ->
  core sp sf act sizes t {| l_data := map f (l_data y); l_dev := l_dev y |} obj g = (renamed f (fst (fst (core sp sf act sizes t y obj g))), snd (fst (core sp sf act sizes t y obj g)), snd (core sp sf act sizes t y obj g)).
Proof.
  intros Hf. unfold fit_core. cbn [l_data l_dev]. rewrite (encode_map f _ Hf). rewrite (surjective_pairing (encode_labels (l_data y))). set (codes := fst (encode_labels (l_data y))). set (classes := snd (encode_labels (l_data y))). rewrite map_length.
  destruct (act && negb (ts_activation_ok sp)); [reflexivity|]. destruct (build _ _) as [w0 g0]. destruct (negb (Qle_bool 0 (ts_lr sp) && Qle_bool 0 (ts_decay sp))); [reflexivity|]. destruct (train _ _ _ _ _ _ _ _ _ _ _) as [[w o] g1]. reflexivity.
Qed.
End Core.

(* ---- checks *)
Lemma check_data_ok t y : check_data t y = Ok tt <-> t_n t = length (l_data y) /\ volume (t_shape t) <> O /\ t_dev t = l_dev y.
Proof.
  unfold check_data. destruct (Nat.eqb_spec (t_n t) (length (l_data y))) as [H1|H1]; cbn [negb]; [|split; [discriminate|intros (H & _); congruence]].
  destruct (Nat.eqb_spec (volume (t_shape t)) 0) as [H2|H2]; [split; [discriminate|intros (_ & H & _); congruence]|].
  destruct (Z.eqb_spec (t_dev t) (l_dev y)) as [H3|H3]; cbn [negb]; [tauto|split; [discriminate|intros (_ & _ & H); congruence]].
Qed.
Lemma check_loop_ok sp : check_loop sp = Ok tt <-> loop_ok sp.
Proof. unfold check_loop, loop_ok. destruct (Z.leb_spec (ts_batch sp) 0); cbn [orb]; [split; [discriminate|lia]|]. destruct (Z.leb_spec (ts_epochs sp) 0); [split; [discriminate|lia]|]. split; [intros _; lia|reflexivity]. Qed.
Lemma check_rates_ok sp : check_rates sp = Ok tt <-> (0 < ts_lr sp)%Q /\ (0 <= ts_dropout sp)%Q /\ (ts_dropout sp < 1)%Q.
Proof.
  unfold check_rates. destruct (Qle_bool (ts_lr sp) 0) eqn:E1; [apply Qle_bool_iff in E1; split; [discriminate|intros (H & _); lra]|]. assert (H1 : (0 < ts_lr sp)%Q) by (apply Qnot_le_lt; intros H; apply Qle_bool_iff in H; congruence).
  destruct (Qle_bool 0 (ts_dropout sp)) eqn:E2; cbn [andb negb]; [apply Qle_bool_iff in E2|split; [discriminate|intros (_ & H & _); apply Qle_bool_iff in H; congruence]].
  destruct (Qle_bool 1 (ts_dropout sp)) eqn:E3; cbn [negb]; [apply Qle_bool_iff in E3; split; [discriminate|intros (_ & _ & H); lra]|]. assert (H3 : (ts_dropout sp < 1)%Q) by (apply Qnot_le_lt; intros H; apply Qle_bool_iff in H; congruence). tauto.
Qed.
Lemma all_positive l : existsb (fun h => h <=? 0)%Z l = false <-> forall h, In h l -> (0 < h)%Z.
Proof.
  split.
  - intros H h Hh. destruct (Z.lt_ge_cases 0 h) as [Hp|Hp]; [exact Hp|]. exfalso. enough (existsb (fun h => h <=? 0)%Z l = true) by congruence. apply existsb_exists. exists h. split; [exact Hh|lia].
  - intros H. destruct (existsb (fun h => h <=? 0)%Z l) eqn:E; [|reflexivity]. apply existsb_exists in E as (h & Hh & Hx). specialize (H h Hh). lia.
Qed.
