From Coq Require Import QArith Qminmax Qabs Lia Lqa ZifyBool ZifyNat Permutation.
From Verif Require Import Prelude ListFacts QFacts SampleServiceProofs DeepLossModel DeepLossSpec DeepLossProofs EnsembleModel SamplingSpec S4vmProofs DeepThreshModel DeepThreshSpec.
Local Open Scope Q_scope.
Local Open Scope list_scope.

Lemma nth_firstn_lt {A} (d : A) n l j : (j < n)%nat -> nth j (firstn n l) d = nth j l d.
Proof. revert l j. induction n as [|n IH]; intros l j J; [lia|]. destruct l as [|x r]; [now destruct j|]. destruct j as [|j]; [reflexivity|]. cbn. apply IH. lia. Qed.
Lemma nth_skipn {A} (d : A) n l j : nth j (skipn n l) d = nth (n + j) l d.
Proof. revert l. induction n as [|n IH]; intros l; [reflexivity|]. destruct l as [|x r]; [now destruct j|]. cbn. apply IH. Qed.

(* ------------------------------------------------------------------ FlexMatch *)
Lemma max_floor l : Z.max (maxZ0 l) 1 = fold_right Z.max 1%Z l.
Proof. unfold maxZ0. induction l as [|x r IH]; [reflexivity|]. cbn [fold_right]. lia. Qed.
Lemma fold_max_ge l a x : In x l -> (x <= fold_right Z.max a l)%Z.
Proof. induction l as [|y r IH]; [easy|]. cbn [fold_right]. intros [->|I]; [lia|]. specialize (IH I). lia. Qed.
Lemma fold_max_ge_base l a : (a <= fold_right Z.max a l)%Z.
Proof. induction l as [|y r IH]; cbn [fold_right]; lia. Qed.

Lemma countZ_succ c l : countZ (c + 1) (map (fun s => (s + 1)%Z) l) = countZ c l.
Proof.
  unfold countZ. f_equal. induction l as [|x r IH]; [reflexivity|]. cbn [map count_occ].
  destruct (Z.eq_dec (x + 1) (c + 1)), (Z.eq_dec x c); try lia; now rewrite IH.
Qed.

Section Flex.
Variable argmax : list Q -> Z.
Hypothesis AM : argmax_ok argmax.
Variables (warmup : bool) (cutoff : Q) (k : nat) (n : Z).
Hypotheses (K : (0 < k)%nat) (N : (0 <= n)%Z).
Let sure (p : list Q) := confident cutoff p.
Let L := last_choice argmax sure.

Lemma last_app h b i : L (h ++ b) i = if (L b i =? -1)%Z then L h i else L b i.
Proof.
  induction h as [|[j p] h IH]; cbn [app].
  - unfold L. cbn [last_choice]. fold L. destruct (Z.eqb_spec (L b i) (-1)); congruence.
  - unfold L in *. cbn [last_choice]. rewrite IH. destruct (last_choice argmax sure b i =? -1)%Z eqn:E; [reflexivity|]. now rewrite E.
Qed.

Lemma torch_index_ok m i : (0 <= i < Z.of_nat m)%Z -> torch_index m i = Ok (Z.to_nat i).
Proof. intros H. unfold torch_index. replace ((0 <=? i)%Z && (i <? Z.of_nat m)%Z) with true by lia. reflexivity. Qed.

Lemma argmax_range p : length p = k -> (0 <= argmax p < Z.of_nat k)%Z.
Proof using All.
  intros H. destruct (AM p) as [R _]; [destruct p; [cbn in H; lia|easy]|]. unfold lenZ in R. lia.
Qed.

Lemma assign_spec batch : (forall i p, In (i, p) batch -> (0 <= i < n)%Z /\ length p = k) ->
  forall sel, length sel = Z.to_nat n ->
  exists sel', flex_assign sel (map (fun b => (fst b, argmax (snd b))) (filter (fun b => sure (snd b)) batch)) = Ok sel' /\
    length sel' = length sel /\
    forall i, (0 <= i < n)%Z -> nth (Z.to_nat i) sel' 0%Z = if (L batch i =? -1)%Z then nth (Z.to_nat i) sel 0%Z else L batch i.
Proof using All.
  induction batch as [|[j p] r IH]; intros OK sel LS.
  - exists sel. repeat split; reflexivity.
  - destruct (OK j p (or_introl eq_refl)) as [J P].
    assert (OK' : forall i p0, In (i, p0) r -> (0 <= i < n)%Z /\ length p0 = k) by (intros; apply OK; now right).
    cbn [filter snd]. pose proof (argmax_range p P) as AR. destruct (sure p) eqn:S.
    + cbn [map flex_assign fst snd]. rewrite torch_index_ok by lia. cbn [bind].
      destruct (IH OK' (update sel (Z.to_nat j) (fun _ => argmax p)) ltac:(rewrite update_length; exact LS)) as (sel' & E & LE & H).
      exists sel'. split; [exact E|]. split; [rewrite LE; apply update_length|]. intros i I. rewrite (H i I).
      unfold L. cbn [last_choice]. fold L. rewrite update_nth by lia. rewrite S.
      destruct (Z.eqb_spec (L r i) (-1)) as [E1|E1].
      * destruct (Z.eqb_spec j i) as [->|NE].
        -- rewrite Nat.eqb_refl. cbn [andb]. replace (argmax p =? -1)%Z with false by lia. reflexivity.
        -- cbn [andb]. replace (Nat.eqb (Z.to_nat i) (Z.to_nat j)) with false by lia. reflexivity.
      * apply Z.eqb_neq in E1. now rewrite E1.
    + destruct (IH OK' sel LS) as (sel' & E & LE & H). exists sel'. split; [exact E|]. split; [exact LE|].
      intros i I. rewrite (H i I). unfold L. cbn [last_choice]. fold L. rewrite S, andb_false_r.
      destruct (Z.eqb_spec (L r i) (-1)) as [E1|E1]; [reflexivity|]. apply Z.eqb_neq in E1. now rewrite E1.
Qed.

Lemma counts_cons sel : bincount (S k) (map (fun s => (s + 1)%Z) sel) = countZ (-1) sel :: map (fun c => countZ (Z.of_nat c) sel) (seq 0 k).
Proof.
  unfold bincount. cbn [seq map]. f_equal.
  - rewrite <- (countZ_succ (-1) sel). reflexivity.
  - rewrite <- seq_shift, map_map. apply map_ext. intros c. rewrite Nat2Z.inj_succ, <- Z.add_1_r. apply countZ_succ.
Qed.

Lemma acc_spec (choice : Z -> Z) c : (c < k)%nat ->
  length (flex_acc warmup k (map choice (arange n))) = k /\
  nth c (flex_acc warmup k (map choice (arange n))) 0 == learning_share warmup n k choice (Z.of_nat c).
Proof.
  intros C. unfold flex_acc, learning_share. rewrite counts_cons. cbn [tl].
  assert (CM : map (fun c => countZ (Z.of_nat c) (map choice (arange n))) (seq 0 k) = map (chosen_for n choice) (map Z.of_nat (seq 0 k))) by (now rewrite map_map).
  destruct warmup.
  - split; [now rewrite !map_length, seq_length|]. rewrite max_floor. cbn [app map]. rewrite <- CM.
    rewrite (map_map (fun c0 => countZ (Z.of_nat c0) (map choice (arange n)))). rewrite (nth_map (fun x => inject_Z (countZ (Z.of_nat x) (map choice (arange n))) / _) (seq 0 k) c 0%nat) by (rewrite seq_length; exact C).
    rewrite seq_nth by exact C. reflexivity.
  - cbn [app]. rewrite <- CM. rewrite <- max_floor. set (l := map (fun c0 => countZ (Z.of_nat c0) (map choice (arange n))) (seq 0 k)).
    destruct (Z.leb_spec (maxZ0 l) 0) as [Z0|Z0].
    + split; [apply repeat_length|]. rewrite nth_repeat.
      assert (chosen_for n choice (Z.of_nat c) = 0%Z) as ->.
      { assert (In (chosen_for n choice (Z.of_nat c)) l) as I by (unfold l; apply in_map_iff; exists c; split; [reflexivity|apply in_seq; lia]).
        pose proof (fold_max_ge l 0%Z _ I). unfold maxZ0 in Z0. unfold chosen_for in *. pose proof (countZ_nonneg (Z.of_nat c) (map choice (arange n))). lia. }
      unfold Qdiv. rewrite Qmult_0_l. reflexivity.
    + split; [unfold l; now rewrite !map_length, seq_length|]. rewrite Z.max_l by lia.
      set (d := inject_Z (maxZ0 l)). unfold l. rewrite map_map. rewrite (nth_map (fun x => inject_Z (countZ (Z.of_nat x) (map choice (arange n))) / d) (seq 0 k) c 0%nat) by (rewrite seq_length; exact C).
      rewrite seq_nth by exact C. reflexivity.
Qed.

Lemma share_range choice c : (c < k)%nat -> 0 <= learning_share warmup n k choice (Z.of_nat c) <= 1.
Proof.
  intros C. unfold learning_share. set (rivals := _ ++ _).
  assert (I : In (chosen_for n choice (Z.of_nat c)) (map (chosen_for n choice) rivals)).
  { apply in_map, in_or_app. right. apply in_map, in_seq. lia. }
  pose proof (fold_max_ge _ 1%Z _ I) as G. pose proof (fold_max_ge_base (map (chosen_for n choice) rivals) 1%Z) as B.
  apply ratio_range; [|lia]. split; [unfold chosen_for; apply countZ_nonneg|exact G].
Qed.

(* the state after a history *)
Definition flex_inv (h : list (Z * list Q)) (s : flex) : Prop :=
  fx_sel s = map (L h) (arange n) /\ length (fx_acc s) = k /\
  forall c, (c < k)%nat -> nth c (fx_acc s) 0 == learning_share warmup n k (L h) (Z.of_nat c).

Lemma flex_init_inv : flex_inv [] (flex_init k n).
Proof.
  unfold flex_inv, flex_init. cbn [fx_sel fx_acc].
  assert (E : repeat (-1)%Z (Z.to_nat n) = map (L []) (arange n)).
  { unfold arange. rewrite map_map. generalize 0%nat. induction (Z.to_nat n) as [|m IH]; intros st; [reflexivity|]. cbn. now rewrite <- IH. }
  split; [exact E|]. split; [apply repeat_length|]. intros c C. rewrite nth_repeat.
  assert (chosen_for n (L []) (Z.of_nat c) = 0%Z) as Z0.
  { unfold chosen_for. rewrite countZ_filter. unfold lenZ. rewrite filter_none; [reflexivity|]. intros x _. unfold L. cbn [last_choice]. lia. }
  unfold learning_share. rewrite Z0. unfold Qdiv. now rewrite Qmult_0_l.
Qed.

Lemma Qle_bool_comp a b x : a == b -> Qle_bool a x = Qle_bool b x.
Proof. intros E. apply Bool.eq_iff_eq_true. rewrite !Qle_bool_iff. now rewrite E. Qed.

Lemma confident_comp a b p : a == b -> confident a p = confident b p.
Proof. intros E. unfold confident. induction p as [|x r IH]; [reflexivity|]. cbn [existsb]. now rewrite (Qle_bool_comp a b x E), IH. Qed.

Lemma flex_mask_spec h s batch : flex_inv h s -> (forall i p, In (i, p) batch -> (0 <= i < n)%Z /\ length p = k) ->
  exists m, flex_mask argmax cutoff (fx_acc s) batch = Ok m /\
    Forall2 (fun row bit => bit = confident (cutoff * (learning_share warmup n k (L h) (argmax (snd row)) /
                                                       (2 - learning_share warmup n k (L h) (argmax (snd row))))) (snd row)) batch m.
Proof using All.
  intros (_ & LA & A) OK. induction batch as [|[i p] r IH]; [exists []; split; [reflexivity|constructor]|].
  destruct (IH (fun i p I => OK i p (or_intror I))) as (m & E & F). destruct (OK i p (or_introl eq_refl)) as [_ P].
  pose proof (argmax_range p P) as AR.
  cbn [flex_mask]. rewrite LA, torch_index_ok by exact AR. cbn [bind]. rewrite E. cbn [bind]. eexists. split; [reflexivity|].
  constructor; [|exact F]. cbn [snd]. unfold flex_threshold.
  rewrite row_max_confident by (destruct p; [cbn in P; lia|easy]).
  apply confident_comp. specialize (A (Z.to_nat (argmax p)) ltac:(lia)). rewrite Z2Nat.id in A by lia. now rewrite A.
Qed.

Lemma flex_step_spec h s st batch : (match st with Some s0 => s0 | None => flex_init k n end) = s -> flex_inv h s -> pool_batch n k batch ->
  exists m s', flex_step argmax warmup cutoff k n st batch = Ok (m, s') /\ flex_inv (h ++ batch) s' /\
    Forall2 (fun row bit => bit = confident (cutoff * (learning_share warmup n k (L h) (argmax (snd row)) /
                                                       (2 - learning_share warmup n k (L h) (argmax (snd row))))) (snd row)) batch m.
Proof using All.
  intros ES I [ND OK]. unfold flex_step. rewrite ES. destruct (flex_mask_spec h s batch I OK) as (m & EM & FM). rewrite EM. cbn [bind].
  assert (EF : filter (fun b => Qle_bool cutoff (row_max (snd b))) batch = filter (fun b => sure (snd b)) batch).
  { apply filter_ext_in. intros [i p] IP. destruct (OK i p IP) as [_ P]. cbn [snd]. apply row_max_confident. destruct p; [cbn in P; lia|easy]. }
  rewrite EF. destruct (filter (fun b => sure (snd b)) batch) as [|x r] eqn:EC.
  - exists m, s. split; [reflexivity|]. split; [|exact FM].
    assert (LB : forall i, L batch i = (-1)%Z).
    { intros i. clear -EC. induction batch as [|[j p] b IH]; [reflexivity|]. cbn [filter snd] in EC. destruct (sure p) eqn:S; [discriminate EC|].
      unfold L. cbn [last_choice]. fold L. rewrite (IH EC), S, andb_false_r. reflexivity. }
    assert (LE : forall i, L (h ++ batch) i = L h i) by (intros i; rewrite last_app, LB; reflexivity).
    destruct I as (I1 & I2 & I3). repeat split.
    + rewrite I1. apply map_ext. intros i. now rewrite LE.
    + exact I2.
    + intros c C. rewrite (I3 c C). unfold learning_share, chosen_for. rewrite (map_ext (L (h ++ batch)) (L h)) by exact LE.
      reflexivity.
  - rewrite <- EC. destruct I as (I1 & I2 & I3).
    destruct (assign_spec batch OK (fx_sel s)) as (sel' & E & LE & H); [rewrite I1, map_length; apply arange_length|].
    rewrite E. cbn [bind]. eexists m, _. split; [reflexivity|]. split; [|exact FM].
    assert (ES' : sel' = map (L (h ++ batch)) (arange n)).
    { apply (nth_ext _ _ 0%Z 0%Z); [rewrite LE, I1, !map_length; reflexivity|]. intros q Q0. rewrite LE, I1, map_length, arange_length in Q0.
      specialize (H (Z.of_nat q) ltac:(lia)). rewrite Nat2Z.id in H. rewrite H, I1.
      rewrite !(nth_map _ (arange n) q 0%Z) by (rewrite arange_length; lia).
      unfold arange. rewrite (nth_map Z.of_nat (seq 0 (Z.to_nat n)) q 0%nat) by (rewrite seq_length; lia). rewrite seq_nth by lia. cbn [Nat.add].
      rewrite last_app. reflexivity. }
    cbn [fx_sel fx_acc]. rewrite ES', I2. split; [reflexivity|]. cbn [fx_acc]. split; [apply (acc_spec (L (h ++ batch)) 0%nat K)|].
    intros c C. apply (acc_spec (L (h ++ batch)) c C).
Qed.

Lemma flex_fit_spec pre : Forall (pool_batch n k) pre -> forall h st, flex_inv h (match st with Some s => s | None => flex_init k n end) ->
  exists ms st', flex_fit argmax warmup cutoff k n st pre = Ok (ms, st') /\ length ms = length pre /\
    flex_inv (h ++ concat pre) (match st' with Some s => s | None => flex_init k n end) /\ (st' = None -> pre = [] /\ st = None).
Proof using All.
  intros F. induction F as [|b r B _ IH]; intros h st I; cbn [flex_fit concat].
  - exists [], st. rewrite app_nil_r. split; [reflexivity|]. split; [reflexivity|]. split; [exact I|auto].
  - destruct (flex_step_spec h _ st b eq_refl I B) as (m & s' & E & I' & _). rewrite E. cbn [bind].
    destruct (IH (h ++ b) (Some s') I') as (ms & st' & E2 & L2 & I2 & N2). rewrite E2. cbn [bind].
    exists (m :: ms), st'. split; [reflexivity|]. split; [cbn; lia|]. rewrite app_assoc. split; [exact I2|].
    intros Z0. destruct (N2 Z0) as [_ D]. discriminate D.
Qed.

Lemma flex_fit_app st a b : flex_fit argmax warmup cutoff k n st (a ++ b) =
  do ' (ms, s) <- flex_fit argmax warmup cutoff k n st a; do ' (ms', s') <- flex_fit argmax warmup cutoff k n s b; Ok (ms ++ ms', s').
Proof.
  revert st. induction a as [|x r IH]; intros st; cbn [app flex_fit bind].
  - destruct (flex_fit argmax warmup cutoff k n st b) as [[ms' s']|e]; reflexivity.
  - destruct (flex_step argmax warmup cutoff k n st x) as [[m s]|e]; [|reflexivity]. cbn [bind]. rewrite IH.
    destruct (flex_fit argmax warmup cutoff k n (Some s) r) as [[ms s']|e]; [|reflexivity]. cbn [bind].
    destruct (flex_fit argmax warmup cutoff k n s' b) as [[ms' s'']|e]; reflexivity.
Qed.

Lemma flex_history pre b : Forall (pool_batch n k) pre -> pool_batch n k b ->
  exists ms m s, flex_fit argmax warmup cutoff k n None (pre ++ [b]) = Ok (ms ++ [m], Some s) /\ length ms = length pre /\
    flex_inv (concat pre ++ b) s /\
    Forall2 (fun row bit => bit = confident (cutoff * (learning_share warmup n k (L (concat pre)) (argmax (snd row)) /
                                                       (2 - learning_share warmup n k (L (concat pre)) (argmax (snd row))))) (snd row)) b m.
Proof using All.
  intros F B. destruct (flex_fit_spec pre F [] None flex_init_inv) as (ms & st & E & LM & I & _).
  destruct (flex_step_spec _ _ st b eq_refl I B) as (m & s & E2 & I2 & FM).
  exists ms, m, s. rewrite flex_fit_app, E. cbn [bind flex_fit]. rewrite E2. cbn [bind]. repeat split; try assumption; apply I2.
Qed.
End Flex.

Lemma threshold_range cutoff a : 0 <= cutoff -> 0 <= a <= 1 -> 0 <= cutoff * (a / (2 - a)) <= cutoff.
Proof.
  intros C A. assert (D : 0 < 2 - a) by lra. assert (R : 0 <= a / (2 - a) <= 1).
  { split; [apply Qle_shift_div_l; lra|apply Qle_shift_div_r; lra]. }
  nra.
Qed.
Lemma threshold_monotone cutoff a b : 0 <= cutoff -> 0 <= a -> a <= b -> b <= 1 -> cutoff * (a / (2 - a)) <= cutoff * (b / (2 - b)).
Proof.
  intros C A AB B. assert (a / (2 - a) <= b / (2 - b)).
  { apply Qle_shift_div_l; [lra|]. setoid_replace (a / (2 - a) * (2 - b)) with (a * (2 - b) / (2 - a)) by (field; lra).
    apply Qle_shift_div_r; [lra|]. nra. }
  nra.
Qed.
Lemma confident_weaker a b p : a <= b -> confident b p = true -> confident a p = true.
Proof.
  intros AB H. apply existsb_exists in H. destruct H as (x & I & X). apply existsb_exists. exists x. split; [exact I|].
  apply Qle_bool_iff in X. apply Qle_bool_iff. lra.
Qed.

(* the pool *)
Lemma fold_min_le l a : (fold_right Z.min a l <= a)%Z /\ forall x, In x l -> (fold_right Z.min a l <= x)%Z.
Proof. induction l as [|y r [IH1 IH2]]; cbn [fold_right]; [split; [lia|easy]|]. split; [lia|]. intros x [->|I]; [lia|]. specialize (IH2 x I). lia. Qed.
Lemma pool_perm n_u idx a b p : idx <> [] -> py_or a b = None -> flex_pool n_u idx a b = Ok p ->
  p = n_u /\ Permutation idx (arange n_u).
Proof.
  intros NE PO. unfold flex_pool. destruct (Z.eqb_spec (lenZ idx) n_u) as [LN|]; [|easy]. cbn [negb]. rewrite PO.
  destruct (_ || _) eqn:E; [easy|]. destruct (Z.eqb_spec (lenZ (uniqueZ idx)) n_u) as [U|]; [|easy]. cbn [negb].
  intros H. injection H as <-. split; [reflexivity|].
  assert (ND : NoDup idx).
  { apply NoDup_incl_NoDup with (l := uniqueZ idx); [apply uniqueZ_NoDup|unfold lenZ in *; lia|].
    intros x I. now apply uniqueZ_In. }
  apply NoDup_Permutation_bis; [exact ND|rewrite arange_length; unfold lenZ in LN; lia|].
  intros x I. apply arange_In. destruct (fold_min_le idx (hd 0%Z idx)) as [_ M]. specialize (M x I).
  pose proof (fold_max_ge idx (hd 0%Z idx) x I). lia.
Qed.

(* ------------------------------------------------------------------ averages and mixtures *)
Lemma mix_length m a b k : length a = k -> length b = k -> length (mix m a b) = k.
Proof. intros A B. unfold mix. rewrite zipw_length; lia. Qed.
Lemma mix_nth m a b k c : length a = k -> length b = k -> (c < k)%nat -> nth c (mix m a b) 0 = nth c a 0 * m + (1 - m) * nth c b 0.
Proof.
  intros A B C. unfold mix. rewrite (zipw_seq _ a b 0 0) by lia. rewrite A. rewrite (nth_map _ _ c 0%nat) by (rewrite seq_length; exact C).
  now rewrite seq_nth by exact C.
Qed.
Lemma Qsum_nth l : Qsum l == Qsum (map (fun i => nth i l 0) (seq 0 (length l))).
Proof. now rewrite nth_seq. Qed.
Lemma distribution_nth k p : length p = k -> (distribution p <-> (forall c, (c < k)%nat -> 0 <= nth c p 0) /\ Qsum (map (fun c => nth c p 0) (seq 0 k)) == 1).
Proof.
  intros L. unfold distribution. rewrite (Qsum_nth p), L. split; intros [H S]; (split; [|exact S]).
  - intros c C. apply H, nth_In. lia.
  - intros x I. destruct (In_nth _ _ 0 I) as (c & C & <-). apply H. lia.
Qed.
Lemma mix_distribution m a b k : 0 <= m <= 1 -> length a = k -> length b = k -> distribution a -> distribution b -> distribution (mix m a b).
Proof.
  intros M A B DA DB. apply (distribution_nth k) in DA; [|exact A]. apply (distribution_nth k) in DB; [|exact B]. destruct DA as [NA SA], DB as [NB SB].
  apply (distribution_nth k); [now apply mix_length|]. split.
  - intros c C. rewrite (mix_nth m a b k c A B C). specialize (NA c C). specialize (NB c C). nra.
  - rewrite (Qsum_ext _ (fun c => nth c a 0 * m + (1 - m) * nth c b 0)).
    + rewrite Qsum_plus, Qsum_scale_r, Qsum_scale, SA, SB. ring.
    + intros c C. apply in_seq in C. now rewrite (mix_nth m a b k c A B) by lia.
Qed.
Lemma col_mean_length k b : length (col_mean k b) = k.
Proof. unfold col_mean. now rewrite map_length, seq_length. Qed.
Lemma col_mean_nth k b c : (c < k)%nat -> nth c (col_mean k b) 0 = class_mean c b.
Proof. intros C. unfold col_mean. rewrite (nth_map _ _ c 0%nat) by (rewrite seq_length; exact C). now rewrite seq_nth by exact C. Qed.
Lemma lenZ_map_pos {A B} (f : A -> B) l : l <> [] -> 0 < inject_Z (lenZ (map f l)).
Proof. intros N. rewrite lenZ_map. now apply lenZ_pos. Qed.
Lemma inject_neq z : 0 < inject_Z z -> ~ inject_Z z == 0.
Proof. intros P E. rewrite E in P. discriminate P. Qed.
Lemma Qsum_div {A} (f : A -> Q) d l : ~ d == 0 -> Qsum (map (fun x => f x / d) l) == Qsum (map f l) / d.
Proof. intros D. unfold Qdiv. apply Qsum_scale_r. Qed.
Lemma col_mean_distribution k b : prob_batch k b -> distribution (col_mean k b).
Proof.
  intros [N H]. pose proof (lenZ_pos b N) as P. apply (distribution_nth k); [apply col_mean_length|]. split.
  - intros c C. rewrite col_mean_nth by exact C. unfold class_mean, Qmean. apply Qle_shift_div_l; [rewrite lenZ_map; exact P|]. rewrite Qmult_0_l.
    apply Qsum_nonneg. intros x I. apply in_map_iff in I. destruct I as (p & <- & I). destruct (H p I) as [L [NN _]]. apply NN, nth_In. lia.
  - rewrite (Qsum_ext _ (fun c => Qsum (map (fun p => nth c p 0) b) / inject_Z (lenZ b))).
    + rewrite Qsum_div by (now apply inject_neq). rewrite Qsum_swap. rewrite (Qsum_ext _ (fun _ => 1)).
      * rewrite Qsum_const, Qmult_1_r. field. now apply inject_neq.
      * intros p I. destruct (H p I) as [L D]. apply (distribution_nth k) in D; [apply D|exact L].
    + intros c C. apply in_seq in C. rewrite col_mean_nth by lia. unfold class_mean, Qmean. now rewrite lenZ_map.
Qed.
Lemma uniform_distribution k : (0 < k)%nat -> distribution (repeat (1 / inject_Z (Z.of_nat k)) k).
Proof.
  intros K. assert (P : 0 < inject_Z (Z.of_nat k)) by (change 0 with (inject_Z 0); rewrite <- Zlt_Qlt; lia).
  apply (distribution_nth k); [apply repeat_length|]. split.
  - intros c C. rewrite (nth_indep _ 0 (1 / inject_Z (Z.of_nat k))) by (rewrite repeat_length; exact C). rewrite nth_repeat. apply Qle_shift_div_l; lra.
  - rewrite (Qsum_ext _ (fun _ => 1 / inject_Z (Z.of_nat k))).
    + rewrite Qsum_const. unfold lenZ. rewrite seq_length. field. now apply inject_neq.
    + intros c C. apply in_seq in C. rewrite (nth_indep _ 0 (1 / inject_Z (Z.of_nat k))) by (rewrite repeat_length; lia). now rewrite nth_repeat.
Qed.
Lemma uniform_nth k c : (c < k)%nat -> nth c (repeat (1 / inject_Z (Z.of_nat k)) k) 0 = 1 / inject_Z (Z.of_nat k).
Proof. intros C. rewrite (nth_indep _ 0 (1 / inject_Z (Z.of_nat k))) by (rewrite repeat_length; exact C). apply nth_repeat. Qed.

(* the greatest entry *)
Lemma row_max_le p t : p <> [] -> (t <= row_max p <-> exists x, In x p /\ t <= x).
Proof.
  intros N. rewrite <- Qle_bool_iff, (row_max_confident t p N). unfold confident. rewrite existsb_exists.
  split; intros (x & I & X); exists x; (split; [exact I|]); now apply Qle_bool_iff.
Qed.
Lemma row_max_ge p x : In x p -> x <= row_max p.
Proof. intros I. apply row_max_le; [destruct p; easy|]. exists x. split; [exact I|apply Qle_refl]. Qed.
Lemma row_max_in p : p <> [] -> exists x, In x p /\ row_max p == x.
Proof.
  intros N. destruct (proj1 (row_max_le p (row_max p) N) (Qle_refl _)) as (x & I & X). exists x. split; [exact I|].
  apply Qle_antisym; [exact X|now apply row_max_ge].
Qed.
Lemma top_spec p : top p = row_max p.
Proof. destruct p; reflexivity. Qed.
Lemma sum_ge_entry p x : (forall y, In y p -> 0 <= y) -> In x p -> x <= Qsum p.
Proof.
  intros NN I. apply in_split in I. destruct I as (a & b & ->). rewrite Qsum_app, Qsum_cons.
  assert (0 <= Qsum a) by (apply Qsum_nonneg; intros; apply NN, in_or_app; now left).
  assert (0 <= Qsum b) by (apply Qsum_nonneg; intros; apply NN, in_or_app; right; now right). lra.
Qed.
Lemma distribution_top p k : distribution p -> length p = k -> (0 < k)%nat -> 1 / inject_Z (Z.of_nat k) <= row_max p <= 1.
Proof.
  intros [NN S] L K. assert (N : p <> []) by (destruct p; [cbn in L; lia|easy]).
  assert (P : 0 < inject_Z (Z.of_nat k)) by (change 0 with (inject_Z 0); rewrite <- Zlt_Qlt; lia). split.
  - apply Qle_shift_div_r; [exact P|]. rewrite <- S.
    assert (H : Qsum (map (fun x => x) p) <= Qsum (map (fun _ => row_max p) p)) by (apply Qsum_le; intros; now apply row_max_ge).
    rewrite map_id, Qsum_const in H. unfold lenZ in H. rewrite L in H. lra.
  - destruct (row_max_in p N) as (x & I & X). rewrite X, <- S. now apply sum_ge_entry.
Qed.
Lemma Qmean_bounds l a b : l <> [] -> (forall x, In x l -> a <= x <= b) -> a <= Qmean l <= b.
Proof.
  intros N H. pose proof (lenZ_pos l N) as P. unfold Qmean.
  assert (H1 : Qsum (map (fun _ => a) l) <= Qsum (map (fun x => x) l)) by (apply Qsum_le; intros x I; apply H, I).
  assert (H2 : Qsum (map (fun x => x) l) <= Qsum (map (fun _ => b) l)) by (apply Qsum_le; intros x I; apply H, I).
  rewrite map_id, Qsum_const in H1, H2. split; [apply Qle_shift_div_l; lra|apply Qle_shift_div_r; lra].
Qed.

(* ------------------------------------------------------------------ moving averages *)
Lemma running_app g m x0 a b : running g m x0 (a ++ b) = running g m (running g m x0 a) b.
Proof. unfold running. apply fold_left_app. Qed.
Lemma running_one g m x v : running g m x [v] = g (m * x + (1 - m) * v).
Proof. reflexivity. Qed.

Lemma running_comp g m x y l : (forall a b, a == b -> g a == g b) -> x == y -> running g m x l == running g m y l.
Proof.
  intros G. revert x y. induction l as [|v r IH]; intros x y E; [exact E|]. cbn. apply IH, G. now rewrite E.
Qed.
Lemma running_range (g : Q -> Q) m lo hi l : 0 <= m <= 1 -> (forall x, lo <= x <= hi -> lo <= g x <= hi) -> (forall x, In x l -> lo <= x <= hi) ->
  forall x0, lo <= x0 <= hi -> lo <= running g m x0 l <= hi.
Proof.
  intros M G. induction l as [|v r IH]; intros H x0 X; [exact X|]. cbn. apply IH; [intros; apply H; now right|]. apply G.
  specialize (H v (or_introl eq_refl)). nra.
Qed.
Lemma at_most_comp a b : a == b -> at_most_95 a == at_most_95 b.
Proof. intros E. unfold at_most_95. now rewrite E. Qed.

Lemma fold_Qmax_spec d l : d <= fold_right Qmax d l /\ (forall x, In x l -> x <= fold_right Qmax d l) /\ (fold_right Qmax d l == d \/ exists x, In x l /\ fold_right Qmax d l == x).
Proof.
  induction l as [|y r (IH1 & IH2 & IH3)]; cbn [fold_right]; [repeat split; [apply Qle_refl|easy|now left]|]. repeat split.
  - eapply Qle_trans; [exact IH1|apply Q.le_max_r].
  - intros x [->|I]; [apply Q.le_max_l|]. eapply Qle_trans; [apply IH2, I|apply Q.le_max_r].
  - destruct (Q.max_spec y (fold_right Qmax d r)) as [[_ E]|[_ E]]; [|right; exists y; split; [now left|exact E]].
    destruct IH3 as [D|(x & I & X)]; [left; now rewrite E|]. right. exists x. split; [now right|now rewrite E].
Qed.
Lemma fold_Qmax_row_max d l : l <> [] -> fold_right Qmax d l == Qmax (row_max l) d.
Proof.
  intros N. destruct (fold_Qmax_spec d l) as (A & B & C). apply Qle_antisym.
  - destruct C as [->|(x & I & ->)]; [apply Q.le_max_r|]. eapply Qle_trans; [exact (row_max_ge l x I)|apply Q.le_max_l].
  - apply Q.max_lub; [|exact A]. destruct (row_max_in l N) as (x & I & ->). now apply B.
Qed.
Lemma fold_Qmax_ext d (f g : nat -> Q) l : (forall c, In c l -> f c == g c) -> fold_right Qmax d (map f l) == fold_right Qmax d (map g l).
Proof.
  induction l as [|c r IH]; intros H; [reflexivity|]. cbn [map fold_right]. rewrite (H c (or_introl eq_refl)), IH; [reflexivity|]. intros; apply H; now right.
Qed.
Lemma relative_range k f c : (0 <= c < Z.of_nat k)%Z -> (forall j, (j < k)%nat -> 0 <= f j) -> 0 <= relative k f c <= 1.
Proof.
  intros C F. unfold relative. destruct (fold_Qmax_spec (1 # 1000000000000) (map f (seq 0 k))) as (A & B & _).
  assert (X : f (Z.to_nat c) <= fold_right Qmax (1 # 1000000000000) (map f (seq 0 k))) by (apply B, in_map, in_seq; lia).
  specialize (F (Z.to_nat c) ltac:(lia)). set (d := fold_right _ _ _) in *.
  assert (D : 0 < d) by (eapply Qlt_le_trans; [|exact A]; reflexivity).
  split; [apply Qle_shift_div_l; lra|apply Qle_shift_div_r; lra].
Qed.
Lemma relative_top k f c : (0 <= c < Z.of_nat k)%Z -> (forall j, (j < k)%nat -> f j <= f (Z.to_nat c)) -> (1 # 1000000000000) <= f (Z.to_nat c) -> relative k f c == 1.
Proof.
  intros C F T. unfold relative. destruct (fold_Qmax_spec (1 # 1000000000000) (map f (seq 0 k))) as (A & B & D).
  assert (X : fold_right Qmax (1 # 1000000000000) (map f (seq 0 k)) == f (Z.to_nat c)).
  { apply Qle_antisym; [|apply B, in_map, in_seq; lia]. destruct D as [->|(x & I & ->)]; [exact T|]. apply in_map_iff in I. destruct I as (j & <- & J). apply in_seq in J. apply F. lia. }
  rewrite X. field. intros E. rewrite E in T. apply T. reflexivity.
Qed.

(* ------------------------------------------------------------------ FreeMatch *)
Section Free.
Variable argmax : list Q -> Z.
Hypothesis AM : argmax_ok argmax.
Variables (q80 : list Q -> Q) (m : Q) (use_quantile clip : bool) (k : nat).
Hypotheses (K : (0 < k)%nat).
Let quantile := if use_quantile then Some q80 else None.

Definition free_inv (h : list (list (list Q))) (s : free) : Prop :=
  length (fr_model s) = k /\ length (fr_hist s) = k /\
  (forall c, (c < k)%nat -> nth c (fr_model s) 0 == free_class k m h c) /\
  (forall c, (c < k)%nat -> nth c (fr_hist s) 0 == free_share argmax k m h c) /\
  fr_time s == free_confidence quantile clip k m h.

Lemma free_init_inv : free_inv [] (free_init k).
Proof using K.
  unfold free_inv, free_init. cbn [fr_model fr_hist fr_time]. rewrite !repeat_length. repeat split.
  - intros c C. now rewrite uniform_nth by exact C.
  - intros c C. now rewrite uniform_nth by exact C.
  - destruct (uniform_distribution k K) as [_ S]. unfold Qmean. rewrite S. unfold lenZ. rewrite repeat_length. reflexivity.
Qed.

Lemma argmax_in b : prob_batch k b -> forall p, In p b -> (0 <= argmax p < Z.of_nat k)%Z.
Proof using AM K.
  intros [_ H] p I. destruct (H p I) as [L _]. destruct (AM p) as [R _]; [destruct p; [cbn in L; lia|easy]|]. unfold lenZ in R. lia.
Qed.

Lemma count_map c b : countZ c (map argmax b) = lenZ (filter (fun p => (argmax p =? c)%Z) b).
Proof.
  unfold countZ, lenZ. f_equal. induction b as [|p r IH]; [reflexivity|]. cbn [map filter count_occ].
  destruct (Z.eq_dec (argmax p) c) as [E|E], (Z.eqb_spec (argmax p) c); try contradiction; cbn [length]; now rewrite IH.
Qed.

Lemma sum_indicator c (l : list nat) : NoDup l -> sumZ (map (fun j => if (c =? j)%nat then 1 else 0)%Z l) = if existsb (Nat.eqb c) l then 1%Z else 0%Z.
Proof.
  induction 1 as [|x r NI ND IH]; [reflexivity|]. cbn [map sumZ fold_right existsb] in *. unfold sumZ in *. rewrite IH.
  destruct (Nat.eqb_spec c x) as [->|]; cbn [orb]; [|lia]. replace (existsb (Nat.eqb x) r) with false; [reflexivity|].
  symmetry. apply Bool.not_true_is_false. intros E. apply existsb_exists in E. destruct E as (y & I & Y). apply Nat.eqb_eq in Y. subst. contradiction.
Qed.

Lemma counts_total b : prob_batch k b -> sumZ (bincount k (map argmax b)) = lenZ b.
Proof using AM K.
  intros PB. assert (H := argmax_in b PB). clear PB. induction b as [|p r IH].
  - unfold bincount. cbn. generalize 0%nat. induction k as [|j IJ]; intros i; [reflexivity|]. cbn in *. destruct j; [reflexivity|]. apply IJ; lia.
  - assert (E : sumZ (bincount k (map argmax (p :: r))) = (sumZ (map (fun j => if (Z.to_nat (argmax p) =? j)%nat then 1 else 0)%Z (seq 0 k)) + sumZ (bincount k (map argmax r)))%Z).
    { unfold bincount. clear IH. pose proof (H p (or_introl eq_refl)) as HP. induction (seq 0 k) as [|j l IL]; [reflexivity|].
      cbn [map sumZ fold_right] in *. unfold sumZ in *. rewrite IL. unfold countZ. cbn [count_occ map].
      destruct (Z.eq_dec (argmax p) (Z.of_nat j)), (Nat.eqb_spec (Z.to_nat (argmax p)) j); lia. }
    rewrite E, IH by (intros q I; apply H; now right). rewrite sum_indicator by apply seq_NoDup.
    replace (existsb _ _) with true; [unfold lenZ; cbn [length]; lia|]. symmetry. apply existsb_exists. exists (Z.to_nat (argmax p)).
    pose proof (H p (or_introl eq_refl)). split; [apply in_seq; lia|apply Nat.eqb_refl].
Qed.

Lemma width_batch b : prob_batch k b -> width b = k.
Proof. intros [N H]. destruct b as [|p r]; [easy|]. cbn. apply H. now left. Qed.

Lemma free_update_inv h st b : free_inv h (match st with Some s => s | None => free_init k end) -> prob_batch k b ->
  free_inv (h ++ [b]) (free_update argmax q80 m use_quantile clip st b).
Proof using AM K.
  intros (I1 & I2 & I3 & I4 & I5) PB. unfold free_update. rewrite (width_batch b PB).
  set (s := match st with Some s => s | None => free_init k end) in *.
  rewrite I1, (counts_total b PB). destruct PB as [NB HB]. assert (P := lenZ_pos b NB).
  assert (LP : (0 < lenZ b)%Z) by (change 0 with (inject_Z 0) in P; now rewrite <- Zlt_Qlt in P).
  replace (0 <? lenZ b)%Z with true by lia.
  assert (LH : length (map (fun c => inject_Z c / inject_Z (lenZ b)) (bincount k (map argmax b))) = k) by (unfold bincount; now rewrite !map_length, seq_length).
  unfold free_inv. cbn [fr_model fr_hist fr_time]. split; [apply mix_length; [exact I1|apply col_mean_length]|]. split; [now apply mix_length|]. split; [|split].
  - intros c C. rewrite (mix_nth m _ _ k c I1 (col_mean_length k b) C), col_mean_nth by exact C. unfold free_class.
    rewrite map_app, running_app. cbn [map]. rewrite running_one. rewrite (I3 c C). unfold free_class. ring.
  - intros c C. rewrite (mix_nth m _ _ k c I2 LH C). unfold free_share. rewrite map_app, running_app. cbn [map]. rewrite running_one, (I4 c C).
    unfold bincount at 1. rewrite map_map. rewrite (nth_map _ (seq 0 k) c 0%nat) by (rewrite seq_length; exact C). rewrite seq_nth by exact C. cbn [Nat.add].
    rewrite count_map. unfold free_share, class_share. ring.
  - unfold free_confidence. rewrite map_app, running_app. cbn [map]. rewrite running_one.
    assert (ET : forall l : list (list Q), map top l = map row_max l) by (intros l; apply map_ext; intros; apply top_spec).
    assert (EV : (if use_quantile then q80 (map row_max b) else Qmean (map row_max b)) =
                 match quantile with Some q => q (map top b) | None => Qmean (map top b) end) by (unfold quantile; rewrite ET; destruct use_quantile; reflexivity).
    rewrite EV. destruct clip.
    + fold (at_most_95 (fr_time s * m + (1 - m) * match quantile with Some q => q (map top b) | None => Qmean (map top b) end)).
      apply at_most_comp. rewrite I5. unfold free_confidence. ring.
    + rewrite I5. unfold free_confidence. ring.
Qed.

Lemma free_mask_spec h s b : free_inv h s -> prob_batch k b ->
  Forall2 (fun p bit => bit = confident (free_confidence quantile clip k m h * relative k (free_class k m h) (argmax p)) p) b (free_mask argmax s b).
Proof using AM K.
  intros (I1 & I2 & I3 & I4 & I5) PB. unfold free_mask. assert (HA := argmax_in b PB). destruct PB as [_ HB].
  assert (NE : fr_model s <> []) by (destruct (fr_model s); [cbn in I1; lia|easy]).
  assert (D : Qmax (row_max (fr_model s)) tiny == fold_right Qmax (1 # 1000000000000) (map (free_class k m h) (seq 0 k))).
  { rewrite <- (fold_Qmax_row_max _ _ NE). rewrite <- (nth_seq 0 (fr_model s)) at 1. rewrite I1. apply fold_Qmax_ext. intros c C. apply in_seq in C. apply I3. lia. }
  clear I1 I2 I4 NE. induction b as [|p r IH]; [constructor|]. cbn [map]. constructor; [|apply IH; intros q Q0; [apply HB|apply HA]; now right].
  destruct (HB p (or_introl eq_refl)) as [LP _]. specialize (HA p (or_introl eq_refl)).
  rewrite row_max_confident by (destruct p; [cbn in LP; lia|easy]). apply confident_comp.
  unfold free_threshold, relative. rewrite I5, D, (I3 (Z.to_nat (argmax p)) ltac:(lia)). reflexivity.
Qed.

Lemma free_fit_spec pre : Forall (prob_batch k) pre -> forall h st, free_inv h (match st with Some s => s | None => free_init k end) ->
  exists ms st', free_fit argmax q80 m use_quantile clip st pre = (ms, st') /\ length ms = length pre /\
    free_inv (h ++ pre) (match st' with Some s => s | None => free_init k end).
Proof using AM K.
  induction 1 as [|b r B _ IH]; intros h st I; cbn [free_fit].
  - exists [], st. rewrite app_nil_r. auto.
  - pose proof (free_update_inv h st b I B) as I'. destruct (IH (h ++ [b]) (Some (free_update argmax q80 m use_quantile clip st b)) I') as (ms & st' & E & L & I2).
    rewrite E. exists (free_mask argmax (free_update argmax q80 m use_quantile clip st b) b :: ms), st'. split; [reflexivity|]. split; [cbn; lia|]. now rewrite <- app_assoc in I2.
Qed.

Lemma free_fit_app st a b : free_fit argmax q80 m use_quantile clip st (a ++ b) =
  let '(ms, s) := free_fit argmax q80 m use_quantile clip st a in let '(ms', s') := free_fit argmax q80 m use_quantile clip s b in (ms ++ ms', s').
Proof.
  revert st. induction a as [|x r IH]; intros st; cbn [app free_fit].
  - destruct (free_fit argmax q80 m use_quantile clip st b); reflexivity.
  - rewrite IH. destruct (free_fit argmax q80 m use_quantile clip (Some _) r) as [ms s]. destruct (free_fit argmax q80 m use_quantile clip s b); reflexivity.
Qed.

Lemma free_history pre b : Forall (prob_batch k) pre -> prob_batch k b ->
  exists ms bits s, free_fit argmax q80 m use_quantile clip None (pre ++ [b]) = (ms ++ [bits], Some s) /\ length ms = length pre /\
    free_inv (pre ++ [b]) s /\
    Forall2 (fun p bit => bit = confident (free_confidence quantile clip k m (pre ++ [b]) * relative k (free_class k m (pre ++ [b])) (argmax p)) p) b bits.
Proof using AM K.
  intros F B. destruct (free_fit_spec pre F [] None free_init_inv) as (ms & st & E & L & I). cbn [app] in I.
  pose proof (free_update_inv pre st b I B) as I'.
  exists ms, (free_mask argmax (free_update argmax q80 m use_quantile clip st b) b), (free_update argmax q80 m use_quantile clip st b).
  rewrite free_fit_app, E. cbn [free_fit]. split; [reflexivity|]. split; [exact L|]. split; [exact I'|now apply free_mask_spec].
Qed.

Lemma free_state_distributions h s : 0 <= m <= 1 -> free_inv h s -> Forall (prob_batch k) h -> distribution (fr_model s) /\ distribution (fr_hist s).
Proof using AM K.
  intros M (I1 & I2 & I3 & I4 & _) F.
  assert (G : forall (v : nat -> list (list Q) -> Q), (forall b, prob_batch k b -> (forall c, (c < k)%nat -> 0 <= v c b) /\ Qsum (map (fun c => v c b) (seq 0 k)) == 1) ->
     forall x0 : nat -> Q, (forall c, (c < k)%nat -> 0 <= x0 c) -> Qsum (map x0 (seq 0 k)) == 1 ->
     (forall c, (c < k)%nat -> 0 <= running (fun x => x) m (x0 c) (map (v c) h)) /\
     Qsum (map (fun c => running (fun x => x) m (x0 c) (map (v c) h)) (seq 0 k)) == 1).
  { intros v V. clear I1 I2 I3 I4. induction F as [|b r B _ IH]; intros x0 X0 S0; [now split|].
    destruct (V b B) as [V1 V2]. apply (IH (fun c => m * x0 c + (1 - m) * v c b)).
    - intros c C. specialize (X0 c C). specialize (V1 c C). nra.
    - rewrite Qsum_plus, !Qsum_scale, S0, V2. ring. }
  assert (U : forall c, (c < k)%nat -> 0 <= 1 / inject_Z (Z.of_nat k)).
  { intros c C. pose proof (proj1 (distribution_nth k _ (repeat_length _ k)) (uniform_distribution k K)) as [A _]. specialize (A c C). now rewrite uniform_nth in A by exact C. }
  assert (US : Qsum (map (fun _ : nat => 1 / inject_Z (Z.of_nat k)) (seq 0 k)) == 1).
  { rewrite Qsum_const. unfold lenZ. rewrite seq_length. field. apply inject_neq. change 0 with (inject_Z 0). rewrite <- Zlt_Qlt. lia. }
  split.
  - apply (distribution_nth k); [exact I1|]. destruct (G (fun c b => class_mean c b)) with (x0 := fun _ : nat => 1 / inject_Z (Z.of_nat k)) as [G1 G2]; [|exact U|exact US|].
    + intros b B. pose proof (col_mean_distribution k b B) as D. apply (distribution_nth k) in D; [|apply col_mean_length]. destruct D as [D1 D2]. split.
      * intros c C. specialize (D1 c C). now rewrite col_mean_nth in D1 by exact C.
      * rewrite <- D2. apply Qsum_ext. intros c C. apply in_seq in C. now rewrite col_mean_nth by lia.
    + split; [intros c C; rewrite (I3 c C); now apply G1|]. rewrite <- G2. apply Qsum_ext. intros c C. apply in_seq in C. apply I3. lia.
  - apply (distribution_nth k); [exact I2|]. destruct (G (fun c b => class_share argmax c b)) with (x0 := fun _ : nat => 1 / inject_Z (Z.of_nat k)) as [G1 G2]; [|exact U|exact US|].
    + intros b B. pose proof (counts_total b B) as T. pose proof (lenZ_pos b (proj1 B)) as P. split.
      * intros c C. unfold class_share. apply Qle_shift_div_l; [exact P|]. rewrite Qmult_0_l. change 0 with (inject_Z 0). rewrite <- Zle_Qle. unfold lenZ. lia.
      * unfold class_share. rewrite Qsum_div by (now apply inject_neq).
        assert (E : Qsum (map (fun c => inject_Z (lenZ (filter (fun p => (argmax p =? Z.of_nat c)%Z) b))) (seq 0 k)) == inject_Z (lenZ b)).
        { rewrite <- T. unfold bincount. generalize (seq 0 k); intros l0; induction l0 as [|c l IL]; [reflexivity|]. cbn [map]. rewrite Qsum_cons, IL, count_map. unfold sumZ. cbn [fold_right]. now rewrite inject_Z_plus. }
        rewrite E. field. now apply inject_neq.
    + split; [intros c C; rewrite (I4 c C); now apply G1|]. rewrite <- G2. apply Qsum_ext. intros c C. apply in_seq in C. apply I4. lia.
Qed.

Lemma free_confidence_range h : 0 <= m <= 1 -> (use_quantile = true -> between_ok q80) -> Forall (prob_batch k) h -> (2 <= k)%nat ->
  1 / inject_Z (Z.of_nat k) <= free_confidence quantile clip k m h <= (if clip then 95 # 100 else 1).
Proof using K.
  intros M Q8 F K2. assert (P : 0 < inject_Z (Z.of_nat k)) by (change 0 with (inject_Z 0); rewrite <- Zlt_Qlt; lia).
  assert (K2' : 2 <= inject_Z (Z.of_nat k)) by (change 2 with (inject_Z 2); rewrite <- Zle_Qle; lia).
  assert (U : 0 < 1 / inject_Z (Z.of_nat k) <= 1 # 2) by (split; [apply Qlt_shift_div_l; lra|apply Qle_shift_div_r; lra]).
  assert (T : forall b, prob_batch k b -> forall x, In x (map top b) -> 1 / inject_Z (Z.of_nat k) <= x <= 1).
  { intros b [_ H] x I. apply in_map_iff in I. destruct I as (p & <- & I). rewrite top_spec. destruct (H p I) as [L D]. now apply distribution_top. }
  assert (V : forall x, In x (map (fun b => match quantile with Some q => q (map top b) | None => Qmean (map top b) end) h) -> 1 / inject_Z (Z.of_nat k) <= x <= 1).
  { intros x I. apply in_map_iff in I. destruct I as (b & <- & I). rewrite Forall_forall in F. specialize (F b I).
    assert (NE : map top b <> []) by (destruct F as [N _]; destruct b; easy). unfold quantile. destruct use_quantile.
    - destruct (Q8 eq_refl (map top b) NE) as (lo & hi & L & H & B). pose proof (T b F lo L). pose proof (T b F hi H). lra.
    - apply Qmean_bounds; [exact NE|exact (T b F)]. }
  unfold free_confidence. destruct clip.
  - assert (G : forall l, (forall x, In x l -> 1 / inject_Z (Z.of_nat k) <= x <= 1) -> forall x0, 1 / inject_Z (Z.of_nat k) <= x0 <= 95 # 100 ->
       1 / inject_Z (Z.of_nat k) <= running at_most_95 m x0 l <= 95 # 100).
    { induction l as [|v r IH]; intros H x0 X; [exact X|]. cbn. apply IH; [intros; apply H; now right|]. specialize (H v (or_introl eq_refl)).
      assert (A : 1 / inject_Z (Z.of_nat k) <= m * x0 + (1 - m) * v) by nra. unfold at_most_95. split; [|apply Q.le_min_r].
      apply Q.min_glb; [eapply Qle_trans; [exact A|apply Q.le_max_l]|lra]. }
    apply G; [exact V|]. lra.
  - apply running_range; [exact M|auto|exact V|lra].
Qed.
End Free.

(* ------------------------------------------------------------------ AdaMatch and SoftMatch *)
Section Align.
Variables (m : Q) (move : bool) (k : nat).
Hypotheses (K : (0 < k)%nat).
Notation pair_ok := (fun b : list (list Q) * list (list Q) => prob_batch k (fst b) /\ prob_batch k (snd b)).

Definition align_inv (h : list (list (list Q) * list (list Q))) (s : align) : Prop :=
  length (al_model s) = k /\ length (al_target s) = k /\
  (forall c, (c < k)%nat -> nth c (al_model s) 0 == predicted_class k m h c) /\
  (forall c, (c < k)%nat -> nth c (al_target s) 0 == target_class move k m h c).

Lemma align_init_inv : align_inv [] (align_init k).
Proof.
  unfold align_inv, align_init. cbn [al_model al_target]. rewrite !repeat_length. repeat split.
  - intros c C. now rewrite uniform_nth by exact C.
  - intros c C. rewrite uniform_nth by exact C. unfold target_class. destruct move; reflexivity.
Qed.

Lemma align_state_inv h st u l : align_inv h (match st with Some s => s | None => align_init k end) -> prob_batch k u -> prob_batch k l ->
  align_inv (h ++ [(u, l)]) (align_state m move st u l).
Proof.
  intros (I1 & I2 & I3 & I4) PU PL. unfold align_state. rewrite (width_batch k u PU).
  set (s := match st with Some s => s | None => align_init k end) in *. unfold align_inv. cbn [al_model al_target].
  split; [apply mix_length; [exact I1|apply col_mean_length]|]. split; [destruct move; [apply mix_length; [exact I2|apply col_mean_length]|exact I2]|]. split.
  - intros c C. rewrite (mix_nth m _ _ k c I1 (col_mean_length k u) C), col_mean_nth by exact C. unfold predicted_class.
    rewrite map_app, running_app. cbn [map fst]. rewrite running_one, (I3 c C). unfold predicted_class. ring.
  - intros c C. specialize (I4 c C). unfold target_class in *. destruct move; [|exact I4].
    rewrite (mix_nth m _ _ k c I2 (col_mean_length k l) C), col_mean_nth by exact C.
    rewrite map_app, running_app. cbn [map snd]. rewrite running_one, I4. ring.
Qed.

Lemma Qmax_pos a b : 0 < b -> 0 < Qmax a b.
Proof. intros B. eapply Qlt_le_trans; [exact B|apply Q.le_max_r]. Qed.
Lemma Q_neq x : 0 < x -> ~ x == 0.
Proof. intros H E. rewrite E in H. discriminate H. Qed.

Lemma align_row_spec h s p : align_inv h s -> length p = k -> aligned k (target_class move k m h) (predicted_class k m h) p (align_row s p).
Proof.
  intros (I1 & I2 & I3 & I4) LP. unfold aligned, align_row.
  assert (LR : length (zipw (fun t q => t / Qmax q (1 # 1000000)) (al_target s) (al_model s)) = k) by (rewrite zipw_length; lia).
  assert (LA : length (zipw Qmult p (zipw (fun t q => t / Qmax q (1 # 1000000)) (al_target s) (al_model s))) = k) by (rewrite zipw_length; lia).
  split; [now rewrite map_length|]. cbv zeta.
  assert (E : forall c, (c < k)%nat -> nth c (zipw Qmult p (zipw (fun t q => t / Qmax q (1 # 1000000)) (al_target s) (al_model s))) 0 ==
     nth c p 0 * (target_class move k m h c / Qmax (predicted_class k m h c) (1 # 1000000))).
  { intros c C. rewrite (zipw_seq Qmult p _ 0 0) by lia. rewrite LP. rewrite (nth_map _ _ c 0%nat) by (rewrite seq_length; exact C). rewrite seq_nth by exact C. cbn [Nat.add].
    rewrite (zipw_seq _ (al_target s) (al_model s) 0 0) by lia. rewrite I2. rewrite (nth_map _ _ c 0%nat) by (rewrite seq_length; exact C). rewrite seq_nth by exact C. cbn [Nat.add].
    now rewrite (I3 c C), (I4 c C). }
  set (a := zipw Qmult p _) in *.
  assert (S : Qsum a == Qsum (map (fun c => nth c p 0 * (target_class move k m h c / Qmax (predicted_class k m h c) (1 # 1000000))) (seq 0 k))).
  { rewrite (Qsum_nth a), LA. apply Qsum_ext. intros c C. apply in_seq in C. apply E. lia. }
  intros c C. rewrite (nth_map _ a c 0) by lia. rewrite <- S, (E c C). unfold tiny. field. split; apply Q_neq, Qmax_pos; reflexivity.
Qed.

Lemma align_fit_spec pre : Forall pair_ok pre -> forall h st, align_inv h (match st with Some s => s | None => align_init k end) ->
  exists a st', align_fit m move st pre = (a, st') /\ length a = length pre /\
    align_inv (h ++ pre) (match st' with Some s => s | None => align_init k end).
Proof.
  induction 1 as [|[u l] r [PU PL] _ IH]; intros h st I; cbn [align_fit].
  - exists [], st. rewrite app_nil_r. auto.
  - cbn [fst snd] in *. pose proof (align_state_inv h st u l I PU PL) as I'. destruct (IH (h ++ [(u, l)]) (Some (align_state m move st u l)) I') as (a & st' & E & L & I2).
    rewrite E. eexists _, st'. split; [reflexivity|]. split; [cbn; lia|]. now rewrite <- app_assoc in I2.
Qed.
Lemma align_fit_app st a b : align_fit m move st (a ++ b) =
  let '(x, s) := align_fit m move st a in let '(y, s') := align_fit m move s b in (x ++ y, s').
Proof.
  revert st. induction a as [|[u l] r IH]; intros st; cbn [app align_fit].
  - destruct (align_fit m move st b); reflexivity.
  - rewrite IH. destruct (align_fit m move (Some _) r) as [x s]. destruct (align_fit m move s b); reflexivity.
Qed.
Lemma align_history pre u l : Forall pair_ok pre -> prob_batch k u -> prob_batch k l ->
  exists before now s, align_fit m move None (pre ++ [(u, l)]) = (before ++ [now], Some s) /\ length before = length pre /\
    align_inv (pre ++ [(u, l)]) s /\
    Forall2 (aligned k (target_class move k m (pre ++ [(u, l)])) (predicted_class k m (pre ++ [(u, l)]))) u now.
Proof.
  intros F PU PL. destruct (align_fit_spec pre F [] None align_init_inv) as (a & st & E & L & I). cbn [app] in I.
  pose proof (align_state_inv pre st u l I PU PL) as I'.
  exists a, (map (align_row (align_state m move st u l)) u), (align_state m move st u l).
  rewrite align_fit_app, E. cbn [align_fit]. split; [reflexivity|]. split; [exact L|]. split; [exact I'|].
  destruct PU as [_ HU]. clear -I' HU K. set (s := align_state m move st u l) in *. set (h := pre ++ [(u, l)]) in *. clearbody s h. induction u as [|p r IH]; [constructor|]. cbn [map]. constructor.
  - apply align_row_spec; [exact I'|]. apply HU. now left.
  - apply IH. intros q Q0. apply HU. now right.
Qed.

Lemma running_dist (v : nat -> list (list Q) * list (list Q) -> Q) h : 0 <= m <= 1 ->
  (forall b, In b h -> (forall c, (c < k)%nat -> 0 <= v c b) /\ Qsum (map (fun c => v c b) (seq 0 k)) == 1) ->
  forall x0 : nat -> Q, (forall c, (c < k)%nat -> 0 <= x0 c) -> Qsum (map x0 (seq 0 k)) == 1 ->
  (forall c, (c < k)%nat -> 0 <= running (fun x => x) m (x0 c) (map (v c) h)) /\
  Qsum (map (fun c => running (fun x => x) m (x0 c) (map (v c) h)) (seq 0 k)) == 1.
Proof.
  intros M V. induction h as [|b r IH]; intros x0 X0 S0; [now split|].
  destruct (V b (or_introl eq_refl)) as [V1 V2]. apply (IH (fun b I => V b (or_intror I)) (fun c => m * x0 c + (1 - m) * v c b)).
  - intros c C. specialize (X0 c C). specialize (V1 c C). nra.
  - rewrite Qsum_plus, !Qsum_scale, S0, V2. ring.
Qed.
Lemma class_mean_dist b : prob_batch k b -> (forall c, (c < k)%nat -> 0 <= class_mean c b) /\ Qsum (map (fun c => class_mean c b) (seq 0 k)) == 1.
Proof.
  intros B. pose proof (col_mean_distribution k b B) as D. apply (distribution_nth k) in D; [|apply col_mean_length]. destruct D as [D1 D2]. split.
  - intros c C. specialize (D1 c C). now rewrite col_mean_nth in D1 by exact C.
  - rewrite <- D2. apply Qsum_ext. intros c C. apply in_seq in C. now rewrite col_mean_nth by lia.
Qed.
Lemma uniform_dist : (forall c, (c < k)%nat -> 0 <= 1 / inject_Z (Z.of_nat k)) /\ Qsum (map (fun _ : nat => 1 / inject_Z (Z.of_nat k)) (seq 0 k)) == 1.
Proof using K.
  split.
  - intros c C. pose proof (proj1 (distribution_nth k _ (repeat_length _ k)) (uniform_distribution k K)) as [A _]. specialize (A c C). now rewrite uniform_nth in A by exact C.
  - rewrite Qsum_const. unfold lenZ. rewrite seq_length. field. apply inject_neq. change 0 with (inject_Z 0). rewrite <- Zlt_Qlt. lia.
Qed.
Lemma align_classes h : 0 <= m <= 1 -> Forall pair_ok h ->
  ((forall c, (c < k)%nat -> 0 <= predicted_class k m h c) /\ Qsum (map (predicted_class k m h) (seq 0 k)) == 1) /\
  ((forall c, (c < k)%nat -> 0 <= target_class move k m h c) /\ Qsum (map (target_class move k m h) (seq 0 k)) == 1).
Proof using K.
  intros M F. rewrite Forall_forall in F. destruct uniform_dist as [U1 U2]. split.
  - apply (running_dist (fun c b => class_mean c (fst b)) h M) with (x0 := fun _ => 1 / inject_Z (Z.of_nat k)); [|exact U1|exact U2].
    intros b I. apply class_mean_dist, F, I.
  - unfold target_class. destruct move; [|split; assumption].
    apply (running_dist (fun c b => class_mean c (snd b)) h M) with (x0 := fun _ => 1 / inject_Z (Z.of_nat k)); [|exact U1|exact U2].
    intros b I. apply class_mean_dist, F, I.
Qed.
End Align.

Lemma dist_entry_le (f : nat -> Q) k c : (forall j, (j < k)%nat -> 0 <= f j) -> Qsum (map f (seq 0 k)) == 1 -> (c < k)%nat -> f c <= 1.
Proof.
  intros N S C. rewrite <- S. apply sum_ge_entry; [|apply in_map, in_seq; lia].
  intros y I. apply in_map_iff in I. destruct I as (j & <- & J). apply in_seq in J. apply N. lia.
Qed.
Lemma aligned_distribution k (target predicted : nat -> Q) p a : length p = k -> distribution p -> aligned k target predicted p a ->
  (forall c, (c < k)%nat -> 0 <= target c) -> (forall c, (c < k)%nat -> predicted c <= 1) ->
  (forall x, In x a -> 0 <= x) /\ ((forall c, (c < k)%nat -> (1 # 1000000000000) <= target c) -> distribution a).
Proof.
  intros LP D [LA A] T P. cbv zeta in A. apply (distribution_nth k) in D; [|exact LP]. destruct D as [D1 D2].
  set (scaled := fun c => nth c p 0 * (target c / Qmax (predicted c) (1 # 1000000))) in *.
  set (z := Qmax (Qsum (map scaled (seq 0 k))) (1 # 1000000000000)) in *.
  assert (Z0 : 0 < z) by (apply Qmax_pos; reflexivity).
  assert (SC : forall c, (c < k)%nat -> nth c p 0 * target c <= scaled c).
  { intros c C. unfold scaled. specialize (D1 c C). specialize (T c C). specialize (P c C).
    set (d := Qmax (predicted c) (1 # 1000000)). assert (D0 : 0 < d) by (apply Qmax_pos; reflexivity).
    assert (DL : d <= 1) by (apply Q.max_lub; [exact P|discriminate]).
    assert (X : target c <= target c / d) by (apply Qle_shift_div_l; [exact D0|nra]). nra. }
  assert (SN : forall c, (c < k)%nat -> 0 <= scaled c) by (intros c C; specialize (SC c C); specialize (D1 c C); specialize (T c C); nra).
  assert (NN : forall c, (c < k)%nat -> 0 <= nth c a 0).
  { intros c C. specialize (A c C). specialize (SN c C). assert (E : nth c a 0 == scaled c / z) by (rewrite <- A; field; now apply Q_neq).
    rewrite E. apply Qle_shift_div_l; [exact Z0|lra]. }
  split.
  - intros x I. destruct (In_nth _ _ 0 I) as (c & C & <-). apply NN. lia.
  - intros TT. apply (distribution_nth k); [exact LA|]. split; [exact NN|].
    assert (S1 : (1 # 1000000000000) <= Qsum (map scaled (seq 0 k))).
    { assert (X : Qsum (map (fun c => nth c p 0 * (1 # 1000000000000)) (seq 0 k)) <= Qsum (map scaled (seq 0 k))).
      { apply Qsum_le. intros c C. apply in_seq in C. specialize (SC c ltac:(lia)). specialize (TT c ltac:(lia)). specialize (D1 c ltac:(lia)). nra. }
      rewrite Qsum_scale_r, D2 in X. lra. }
    assert (ZE : z == Qsum (map scaled (seq 0 k))) by (apply Q.max_l; exact S1).
    assert (X : Qsum (map (fun c => nth c a 0 * z) (seq 0 k)) == Qsum (map scaled (seq 0 k))) by (apply Qsum_ext; intros c C; apply in_seq in C; apply A; lia).
    rewrite Qsum_scale_r, <- ZE in X. setoid_replace (Qsum (map (fun c => nth c a 0) (seq 0 k))) with (Qsum (map (fun c => nth c a 0) (seq 0 k)) * z / z) by (field; now apply Q_neq).
    rewrite X. field. now apply Q_neq.
Qed.
Lemma aligned_same k (target predicted : nat -> Q) p a : length p = k -> distribution p -> aligned k target predicted p a ->
  (forall c, (c < k)%nat -> target c == predicted c /\ (1 # 1000000) <= predicted c) -> Forall2 Qeq a p.
Proof.
  intros LP D [LA A] T. cbv zeta in A. apply (distribution_nth k) in D; [|exact LP]. destruct D as [D1 D2].
  assert (SC : forall c, (c < k)%nat -> nth c p 0 * (target c / Qmax (predicted c) (1 # 1000000)) == nth c p 0).
  { intros c C. destruct (T c C) as [E G]. rewrite E, (Q.max_l _ _ G). field. apply Q_neq. lra. }
  assert (S1 : Qsum (map (fun c => nth c p 0 * (target c / Qmax (predicted c) (1 # 1000000))) (seq 0 k)) == 1).
  { rewrite <- D2. apply Qsum_ext. intros c C. apply in_seq in C. apply SC. lia. }
  apply Forall2_nth with (d1 := 0) (d2 := 0); [lia|]. intros c C. rewrite LA in C. specialize (A c C). rewrite S1, (SC c C), Q.max_l in A by discriminate. lra.
Qed.

(* ------------------------------------------------------------------ SoftMatch weights *)
Lemma soft_weight_props exp n_sigma mu var : exp_ok exp ->
  (forall p, 0 < soft_weight exp n_sigma mu var p <= 1) /\
  (forall p, mu <= p -> soft_weight exp n_sigma mu var p == 1) /\
  (forall p q, p <= q -> soft_weight exp n_sigma mu var p <= soft_weight exp n_sigma mu var q).
Proof.
  intros (EP & EM & E0). assert (EC : forall x y, x == y -> exp x == exp y) by (intros x y E; apply Qle_antisym; apply EM; rewrite E; apply Qle_refl).
  unfold soft_weight. set (d := Qmax (2 * var / (n_sigma * n_sigma)) tiny).
  assert (D : 0 < d) by (apply Qmax_pos; reflexivity).
  assert (NP : forall x, - (x * x) / d <= 0).
  { intros x. apply Qle_shift_div_r; [exact D|]. nra. }
  split; [|split].
  - intros p. split; [apply EP|]. pose proof (EM _ 0 (NP (Qmin (p - mu) 0))). lra.
  - intros p H. apply Qeq_trans with (exp 0); [|exact E0]. apply EC. assert (E : Qmin (p - mu) 0 == 0) by (apply Q.min_r; lra). rewrite E. field. now apply Q_neq.
  - intros p q H. apply EM. apply Qle_shift_div_l; [exact D|].
    setoid_replace (- (Qmin (p - mu) 0 * Qmin (p - mu) 0) / d * d) with (- (Qmin (p - mu) 0 * Qmin (p - mu) 0)) by (field; now apply Q_neq).
    assert (A : Qmin (p - mu) 0 <= Qmin (q - mu) 0) by (apply Q.min_le_compat_r; lra). assert (B : Qmin (q - mu) 0 <= 0) by apply Q.le_min_r. nra.
Qed.
Lemma soft_stats_range variance m st v lo hi : 0 <= m <= 1 -> v <> [] -> (forall x, In x v -> lo <= x <= hi) -> lo <= fst st <= hi ->
  lo <= fst (soft_stats variance m st v) <= hi.
Proof. intros M N H S. unfold soft_stats. cbn [fst]. pose proof (Qmean_bounds v lo hi N H). nra. Qed.

(* ------------------------------------------------------------------ ADSH *)
Section Adsh.
Variable argmax : list Q -> Z.
Hypothesis AM : argmax_ok argmax.
Variable sort : list Q -> list Q.
Hypothesis SO : desc_ok sort.
Variables (cutoff : Q) (majority : Z).
Hypothesis CO : 0 < cutoff.

Lemma rho_spec vals : 0 < adsh_rho cutoff vals <= 1 /\
  (existsb (fun v => Qle_bool cutoff v) vals = true -> adsh_rho cutoff vals == inject_Z (lenZ (filter (fun v => Qle_bool cutoff v) vals)) / inject_Z (lenZ vals)) /\
  (existsb (fun v => Qle_bool cutoff v) vals = false -> adsh_rho cutoff vals = 1).
Proof using.
  unfold adsh_rho. destruct vals as [|v r]; [cbn; repeat split; easy|]. set (l := v :: r).
  assert (P : 0 < inject_Z (lenZ l)) by (apply lenZ_pos; easy).
  assert (E : existsb (fun v => Qle_bool cutoff v) l = (0 <? lenZ (filter (fun v => Qle_bool cutoff v) l))%Z).
  { clear P. induction l as [|x t IH]; [reflexivity|]. cbn [existsb filter]. destruct (Qle_bool cutoff x); [unfold lenZ; cbn [length orb]; lia|exact IH]. }
  rewrite <- E. destruct (existsb (fun v => Qle_bool cutoff v) l) eqn:X.
  - symmetry in E. apply Z.ltb_lt in E. assert (Q0 : 0 < inject_Z (lenZ (filter (fun v => Qle_bool cutoff v) l))) by (change 0 with (inject_Z 0); rewrite <- Zlt_Qlt; exact E).
    assert (LE : inject_Z (lenZ (filter (fun v => Qle_bool cutoff v) l)) <= inject_Z (lenZ l)).
    { rewrite <- Zle_Qle. clear. unfold lenZ. induction l as [|x t IH]; [reflexivity|]. cbn [filter]. destruct (Qle_bool cutoff x); cbn [length]; lia. }
    split; [|split; [reflexivity|discriminate]]. split; [apply Qlt_shift_div_l; lra|apply Qle_shift_div_r; lra].
  - split; [split; [reflexivity|apply Qle_refl]|]. split; [discriminate|reflexivity].
Qed.

Lemma filter_perm_length {A} (f : A -> bool) a b : Permutation a b -> length (filter f a) = length (filter f b).
Proof using. intros P. apply Permutation_length. now apply Permutation_filter. Qed.
Lemma filter_firstn_ge {A} (f : A -> bool) n l : (n <= length l)%nat -> (forall x, In x (firstn n l) -> f x = true) -> (n <= length (filter f l))%nat.
Proof using.
  intros N H. rewrite <- (firstn_skipn n l), filter_app, app_length.
  assert (E : filter f (firstn n l) = firstn n l).
  { induction (firstn n l) as [|x r IH]; [reflexivity|]. cbn [filter]. rewrite (H x (or_introl eq_refl)). f_equal. apply IH. intros; apply H; now right. }
  rewrite E, firstn_length. lia.
Qed.
Lemma filter_skipn_le {A} (f : A -> bool) n l : (forall x, In x (skipn n l) -> f x = false) -> (length (filter f l) <= n)%nat.
Proof using.
  intros H. rewrite <- (firstn_skipn n l), filter_app, app_length.
  assert (E : filter f (skipn n l) = []).
  { induction (skipn n l) as [|x r IH]; [reflexivity|]. cbn [filter]. rewrite (H x (or_introl eq_refl)). apply IH. intros; apply H; now right. }
  rewrite E. cbn [length]. assert (G : forall l0 : list A, (length (filter f l0) <= length l0)%nat) by (induction l0 as [|x t IT]; [reflexivity|]; cbn [filter]; destruct (f x); cbn [length]; lia).
  specialize (G (firstn n l)). rewrite firstn_length in G. lia.
Qed.

Lemma score_spec rho old vals : vals <> [] -> 0 < rho <= 1 ->
  let s := adsh_score sort cutoff rho old vals in
  (exists v, In v vals /\ s == Qmin v cutoff) /\
  inject_Z (lenZ vals) * rho - (1 # 2) <= inject_Z (lenZ (filter (fun v => Qle_bool s v) vals)) /\
  (s < cutoff -> inject_Z (lenZ (filter (fun v => negb (Qle_bool v s)) vals)) <= Qmax 0 (inject_Z (lenZ vals) * rho - (1 # 2))).
Proof using SO.
  intros NE R. cbv zeta. unfold adsh_score. destruct vals as [|v0 vr] eqn:EV; [easy|]. rewrite <- EV in *. clear v0 vr EV.
  destruct (SO vals) as [PS DS]. pose proof (Permutation_length PS) as LS.
  pose proof (round_even_nearest (inject_Z (lenZ vals) * rho - 1)) as NR. set (r := round_even _) in *.
  assert (LP : (0 < lenZ vals)%Z) by (unfold lenZ; destruct vals; [easy|cbn; lia]).
  set (i := if (lenZ vals <=? (if (r <? 0)%Z then 0 else r))%Z then (lenZ vals - 1)%Z else (if (r <? 0)%Z then 0%Z else r)).
  assert (I0 : (0 <= i < lenZ vals)%Z) by (unfold i; destruct (r <? 0)%Z eqn:E1; destruct (lenZ vals <=? _)%Z eqn:E2; lia).
  assert (NB : (r <= lenZ vals - 1)%Z).
  { destruct NR as [NR _]. assert (X : inject_Z r <= inject_Z (lenZ vals) - 1 + (1 # 2)).
    { pose proof (Qle_Qabs (inject_Z r - (inject_Z (lenZ vals) * rho - 1))) as Y. rewrite Qabs_Qminus in Y.
      assert (P : 0 < inject_Z (lenZ vals)) by (now apply lenZ_pos). nra. }
    assert (Y : inject_Z r < inject_Z (lenZ vals)) by lra. rewrite <- Zlt_Qlt in Y. lia. }
  assert (IR : i = Z.max 0 r) by (unfold i; destruct (r <? 0)%Z eqn:E1; destruct (lenZ vals <=? _)%Z eqn:E2; lia).
  assert (IB : inject_Z (lenZ vals) * rho - (1 # 2) <= inject_Z (i + 1) /\ inject_Z i <= Qmax 0 (inject_Z (lenZ vals) * rho - (1 # 2))).
  { destruct NR as [NR _]. pose proof (Qle_Qabs (inject_Z (lenZ vals) * rho - 1 - inject_Z r)) as Y1.
    pose proof (Qle_Qabs (inject_Z r - (inject_Z (lenZ vals) * rho - 1))) as Y2. rewrite Qabs_Qminus in Y2.
    assert (RI : inject_Z r <= inject_Z i) by (rewrite <- Zle_Qle; lia). rewrite inject_Z_plus. change (inject_Z 1) with 1. split; [lra|].
    destruct (Z.max_spec 0 r) as [[_ E]|[_ E]]; rewrite IR, E; [|apply Q.le_max_l]. eapply Qle_trans; [|apply Q.le_max_r]. lra. }
  clearbody i. clear NB IR NR. clearbody r. set (t := nth (Z.to_nat i) (sort vals) 0).
  assert (TI : In t vals) by (apply (Permutation_in _ PS), nth_In; unfold lenZ in I0; lia).
  assert (LV : length (sort vals) = length vals) by lia.
  split; [exists t; split; [exact TI|reflexivity]|]. split.
  - apply Qle_trans with (inject_Z (i + 1)); [apply IB|]. rewrite <- Zle_Qle. unfold lenZ.
    rewrite <- (filter_perm_length _ _ _ PS).
    assert (G : (Z.to_nat (i + 1) <= length (filter (fun v => Qle_bool (Qmin t cutoff) v) (sort vals)))%nat).
    { apply filter_firstn_ge; [unfold lenZ in I0; lia|]. intros x IX. apply Qle_bool_iff. apply Qle_trans with t; [apply Q.le_min_l|].
      destruct (In_nth _ _ 0 IX) as (j & J & <-). rewrite firstn_length in J. rewrite nth_firstn_lt by lia. apply DS. unfold lenZ in I0. lia. }
    lia.
  - intros SL. assert (TS : Qmin t cutoff == t).
    { destruct (Q.min_spec t cutoff) as [[_ E]|[_ E]]; [exact E|]. rewrite E in SL. exfalso. lra. }
    apply Qle_trans with (inject_Z i); [|apply IB]. rewrite <- Zle_Qle. unfold lenZ. rewrite <- (filter_perm_length _ _ _ PS).
    assert (G : (length (filter (fun v => negb (Qle_bool v (Qmin t cutoff))) (sort vals)) <= Z.to_nat i)%nat).
    { apply filter_skipn_le. intros x IX. apply negb_false_iff, Qle_bool_iff. rewrite TS.
      destruct (In_nth _ _ 0 IX) as (j & J & <-). rewrite skipn_length in J. rewrite nth_skipn. apply DS. unfold lenZ in I0. lia. }
    lia.
Qed.

Definition scores_ok (k : nat) (scores : list Q) : Prop :=
  length scores = k /\ (forall s, In s scores -> 0 < s <= cutoff) /\ nth (Z.to_nat majority) scores 0 == cutoff.

Lemma predicted_as_pos k b c : (0 < k)%nat -> (forall p, In p b -> length p = k /\ distribution p) -> forall v, In v (predicted_as argmax b c) -> 0 < v.
Proof using.
  intros K H v I. apply in_map_iff in I. destruct I as (p & <- & I). apply filter_In in I. destruct I as [I _]. destruct (H p I) as [L D].
  pose proof (distribution_top p k D L K) as [T _]. assert (P : 0 < inject_Z (Z.of_nat k)) by (change 0 with (inject_Z 0); rewrite <- Zlt_Qlt; lia).
  assert (0 < 1 / inject_Z (Z.of_nat k)) by (apply Qlt_shift_div_l; lra). lra.
Qed.

Lemma update_nth_score scores b c : (c < length scores)%nat -> nth c (adsh_update argmax sort cutoff majority scores b) 0 =
  if (Z.of_nat c =? majority)%Z then cutoff else adsh_score sort cutoff (adsh_rho cutoff (predicted_as argmax b majority)) (nth c scores 0) (predicted_as argmax b (Z.of_nat c)).
Proof using. intros C. unfold adsh_update. rewrite (nth_map _ _ c 0%nat) by (rewrite seq_length; exact C). now rewrite seq_nth by exact C. Qed.

Lemma update_ok k scores b : (0 < k)%nat -> (0 <= majority < Z.of_nat k)%Z -> scores_ok k scores -> (forall p, In p b -> length p = k /\ distribution p) ->
  scores_ok k (adsh_update argmax sort cutoff majority scores b).
Proof using SO CO.
  intros K MJ (L & R & M) H. assert (LU : length (adsh_update argmax sort cutoff majority scores b) = k) by (unfold adsh_update; now rewrite map_length, seq_length).
  split; [exact LU|]. split.
  - intros s I. destruct (In_nth _ _ 0 I) as (c & C & <-). rewrite LU in C. rewrite update_nth_score by lia.
    destruct (Z.of_nat c =? majority)%Z; [split; [exact CO|apply Qle_refl]|].
    destruct (predicted_as argmax b (Z.of_nat c)) as [|v vr] eqn:EV; [apply R, nth_In; lia|]. rewrite <- EV.
    destruct (rho_spec (predicted_as argmax b majority)) as [RB _].
    destruct (score_spec (adsh_rho cutoff (predicted_as argmax b majority)) (nth c scores 0) (predicted_as argmax b (Z.of_nat c)) ltac:(rewrite EV; easy) RB) as ((w & IW & EW) & _ & _).
    rewrite EW. pose proof (predicted_as_pos k b (Z.of_nat c) K H w IW). split; [apply Q.min_glb_lt; assumption|apply Q.le_min_r].
  - rewrite update_nth_score by lia. rewrite Z2Nat.id by lia. now rewrite Z.eqb_refl.
Qed.

Lemma epochs_ok k epochs : (0 < k)%nat -> (0 <= majority < Z.of_nat k)%Z -> (forall b p, In b epochs -> In p b -> length p = k /\ distribution p) ->
  forall scores, scores_ok k scores -> scores_ok k (fold_left (adsh_update argmax sort cutoff majority) epochs scores).
Proof using SO CO.
  intros K MJ. induction epochs as [|b r IH]; intros H scores S; [exact S|]. cbn [fold_left]. apply IH; [intros b' p I; apply H; now right|].
  apply update_ok; try assumption. intros p I. apply (H b p (or_introl eq_refl) I).
Qed.

Lemma initial_ok k : (0 <= majority < Z.of_nat k)%Z -> scores_ok k (repeat cutoff k).
Proof using CO.
  intros MJ. split; [apply repeat_length|]. split; [intros s I; apply repeat_spec in I; subst; split; [exact CO|apply Qle_refl]|].
  rewrite (nth_indep _ 0 cutoff) by (rewrite repeat_length; lia). now rewrite nth_repeat.
Qed.

Lemma adsh_row_spec_gen k scores p y used : (0 < k)%nat -> length scores = k -> (forall s, In s scores -> 0 < s <= cutoff) -> length p = k -> adsh_row argmax scores p = (y, used) ->
  (used = true <-> exists c, (c < k)%nat /\ nth c scores 0 <= nth c p 0) /\
  ((0 <= y < Z.of_nat k)%Z /\ (used = true -> nth (Z.to_nat y) scores 0 <= nth (Z.to_nat y) p 0)).
Proof using AM.
  intros K L R LP. unfold adsh_row. intros E. injection E as EY EU.
  set (q := zipw Qdiv p scores) in *. assert (LQ : length q = k) by (unfold q; rewrite zipw_length; lia).
  assert (NQ : forall c, (c < k)%nat -> nth c q 0 = nth c p 0 / nth c scores 0).
  { intros c C. unfold q. rewrite (zipw_seq Qdiv p scores 0 0) by lia. rewrite LP. rewrite (nth_map _ _ c 0%nat) by (rewrite seq_length; exact C). now rewrite seq_nth by exact C. }
  assert (GE : forall c, (c < k)%nat -> (1 <= nth c q 0 <-> nth c scores 0 <= nth c p 0)).
  { intros c C. rewrite (NQ c C). assert (S : 0 < nth c scores 0) by (apply R, nth_In; lia). split; intros H.
    - assert (X : nth c p 0 == nth c p 0 / nth c scores 0 * nth c scores 0) by (field; now apply Q_neq). rewrite X. nra.
    - apply Qle_shift_div_l; [exact S|lra]. }
  assert (NE : q <> []) by (destruct q; [cbn in LQ; lia|easy]).
  destruct (AM q NE) as [YR YM]. rewrite EY in YR, YM. unfold lenZ in YR. rewrite LQ in YR. split; [|split; [exact YR|]].
  - rewrite <- EU, Qle_bool_iff, (row_max_le q 1 NE). split.
    + intros (x & I & X). destruct (In_nth _ _ 0 I) as (c & C & <-). exists c. rewrite LQ in C. split; [exact C|]. now apply GE.
    + intros (c & C & X). exists (nth c q 0). split; [apply nth_In; lia|]. now apply GE.
  - intros U. rewrite <- EU in U. apply Qle_bool_iff, (row_max_le q 1 NE) in U. destruct U as (x & I & X). destruct (In_nth _ _ 0 I) as (c & C & <-).
    specialize (YM c C). apply GE; [lia|]. lra.
Qed.
End Adsh.
