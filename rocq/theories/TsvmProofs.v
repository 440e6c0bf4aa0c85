From Coq Require Import QArith Qminmax Qabs Lqa Permutation Lia.
From Coq Require Import ZifyBool ZifyNat.
From Verif Require Import Prelude ListFacts QFacts TransModel TransProofs TransSolveProofs CgProofs EnsembleModel S4vmProofs SamplingSpec InductSpec GnnTrainProofs TsvmModel TsvmSpec.
Local Open Scope Q_scope.
Local Open Scope list_scope.
Local Notation length := List.length.

Definition mach (m : svm) : machine := (sv_w m, sv_b m).
Lemma score_decision d m x : length (sv_w m) = d -> length x = d -> score m x == decision d (mach m) x.
Proof.
  intros Hw Hx. unfold score, decision, mach. cbn [fst snd]. apply Qplus_comp; [|reflexivity]. rewrite (dot_sum x (sv_w m) d Hx Hw). apply Qsum_ext. intros; ring.
Qed.
Lemma active_violated d m e : length (sv_w m) = d -> length (fst e) = d -> negb (Qle_bool 1 (snd e * score m (fst e))) = violated d (mach m) e.
Proof.
  intros Hw Hx. pose proof (score_decision d m (fst e) Hw Hx) as E. unfold violated.
  assert (E' : snd e * score m (fst e) == snd e * decision d (mach m) (fst e)) by (rewrite E; reflexivity).
  destruct (Qlt_le_dec _ _) as [H|H]; destruct (Qle_bool _ _) eqn:B; try reflexivity.
  - apply Qle_bool_iff in B. lra.
  - assert (Q : Qle_bool 1 (snd e * score m (fst e)) = true) by (apply Qle_bool_iff; lra). congruence.
Qed.
Lemma sgd_length lr C l2 b m : length (sv_w (sgd_step lr C l2 b m)) = length (sv_w m).
Proof. cbn. now rewrite map_length, seq_length. Qed.
Lemma max1_len {A} (a : A) l : Qmax 1 (inject_Z (lenZ (a :: l))) == inject_Z (Z.of_nat (length (a :: l))).
Proof.
  rewrite Q.max_r; [reflexivity|]. change 1 with (inject_Z 1). rewrite <- Zle_Qle. unfold lenZ. cbn [List.length]. lia.
Qed.
Lemma sgd_moved d lr l2 C batch m : length (sv_w m) = d -> (forall e, In e batch -> length (fst e) = d) ->
  moved d lr l2 C batch (mach m) (mach (sgd_step lr C l2 batch m)).
Proof.
  intros Hw Hx. unfold moved. set (v := filter (violated d (mach m)) batch).
  assert (EA : filter (fun e : example => negb (Qle_bool 1 (snd e * score m (fst e)))) batch = v).
  { apply filter_ext_in. intros e He. apply active_violated; [exact Hw|apply Hx, He]. }
  split; [cbn [mach fst]; rewrite sgd_length; exact Hw|]. unfold mach, sgd_step. cbn [fst snd sv_w sv_b]. rewrite EA. rewrite Hw.
  split.
  - intros j Hj. rewrite (nth_map_in _ (seq 0 d) j 0%nat) by (rewrite seq_length; exact Hj). rewrite seq_nth by exact Hj. cbn [Nat.add].
    destruct v as [|a l]; [cbn [map]; unfold average; rewrite Qsum_nil; unfold Qdiv; ring|].
    cbv beta iota. pose proof (max1_len a l) as M. set (k := Qmax 1 (inject_Z (lenZ (a :: l)))) in *. clearbody k. set (L := a :: l) in *.
    rewrite M. unfold average. rewrite map_length.
    rewrite (Qsum_ext (fun e : example => snd e * nth j (fst e) 0) (fun e : example => nth j (fst e) 0 * snd e) L) by (intros; ring). unfold Qdiv. ring.
  - destruct v as [|a l]; [cbn [map]; unfold average; rewrite Qsum_nil; unfold Qdiv; ring|].
    unfold average, Qmean, lenZ. ring.
Qed.

Lemma slices_cut {A} bs : (0 < bs)%nat -> forall fuel (l : list A), (length l <= fuel)%nat -> cut bs l (slices fuel bs l).
Proof.
  intros Hb. induction fuel as [|f IH]; intros l Hl.
  - destruct l; [constructor|cbn in Hl; lia].
  - destruct l as [|a l]; [constructor|]. cbn [slices]. set (L := a :: l) in *. destruct (Nat.le_gt_cases (length L) bs) as [H|H].
    + rewrite firstn_all2 by exact H. rewrite skipn_all2 by exact H. replace (slices f bs (@nil A)) with (@nil (list A)) by (destruct f; reflexivity).
      apply cut_last; [discriminate|exact H].
    + pose proof (skipn_length bs L) as SL. pose proof (firstn_skipn bs L) as FS. replace (cut bs L) with (cut bs (firstn bs L ++ skipn bs L)) by now rewrite FS.
      apply cut_more; [apply firstn_length_le; lia|intros E; rewrite E in SL; cbn [List.length] in SL; lia|].
      apply IH. rewrite SL. lia.
Qed.
Lemma cut_map {A B} (f : A -> B) bs l ps : cut bs l ps -> cut bs (map f l) (map (map f) ps).
Proof.
  induction 1; cbn [map]; [constructor| |].
  - apply cut_last; [intros E; apply map_eq_nil in E; contradiction|now rewrite map_length].
  - rewrite map_app. apply cut_more; [now rewrite map_length|intros E; apply map_eq_nil in E; contradiction|exact IHcut].
Qed.
Lemma cut_in {A} bs (l : list A) ps : cut bs l ps -> forall b x, In b ps -> In x b -> In x l.
Proof.
  induction 1; intros b x Hb Hx; cbn [In] in Hb; [destruct Hb|destruct Hb as [<-|[]]; exact Hx|].
  destruct Hb as [<-|Hb]; apply in_or_app; [left; exact Hx|right; exact (IHcut b x Hb Hx)].
Qed.

Section Fit.
Variable G : Type.
Variable permutation : list nat -> G -> list nat * G.
Hypothesis perm_ok : forall idx g, Permutation (fst (permutation idx g)) idx.
Variable d : nat.

Lemma fold_steps lr l2 C batches : forall m, length (sv_w m) = d -> (forall b e, In b batches -> In e b -> length (fst e) = d) ->
  steps d lr l2 C batches (mach m) (mach (fold_left (fun m b => sgd_step lr C l2 b m) batches m)) /\
  length (sv_w (fold_left (fun m b => sgd_step lr C l2 b m) batches m)) = d.
Proof using Type.
  induction batches as [|b bs IH]; intros m Hw Hx; cbn [fold_left]; [split; [constructor|exact Hw]|].
  destruct (IH (sgd_step lr C l2 b m)) as [H1 H2].
  - rewrite sgd_length. exact Hw.
  - intros b' e Hb He. apply (Hx b'); [now right|exact He].
  - split; [|exact H2]. eapply steps_cons; [|exact H1]. apply sgd_moved; [exact Hw|]. intros e He. apply (Hx b); [now left|exact He].
Qed.
Lemma fold_left_map {A B S} (f : S -> B -> S) (h : A -> B) l : forall s, fold_left (fun s a => f s (h a)) l s = fold_left f (map h l) s.
Proof using Type. induction l as [|a l IH]; intros s; cbn; [reflexivity|apply IH]. Qed.

Lemma fit_sgd_trained lr l2 C bs data : (0 < bs)%Z -> (forall e, In e data -> length (fst e) = d) -> forall epochs m g, length (sv_w m) = d ->
  exists m' g', fit_sgd G permutation epochs data bs lr C l2 m g = Ok (m', g') /\ trained d lr l2 (Z.to_nat bs) C data epochs (mach m) (mach m') /\ length (sv_w m') = d.
Proof using perm_ok.
  intros Hb Hx. induction epochs as [|n IH]; intros m g Hw; cbn [fit_sgd].
  - exists m, g. split; [reflexivity|]. split; [constructor|exact Hw].
  - unfold batch_indices. set (f := fun i => nth i data ([], 0)).
    assert (X : exists batches g1, (match seq 0 (length data) with [] => Ok ([], g) | _ :: _ => let (p, g0) := permutation (seq 0 (length data)) g in if (bs =? 0)%Z then Err ValueError else if (bs <? 0)%Z then Ok ([], g0) else Ok (slices (length p) (Z.to_nat bs) p, g0) end) = Ok (batches, g1) /\
              exists order, Permutation order data /\ cut (Z.to_nat bs) order (map (map f) batches)).
    { destruct data as [|e0 data'] eqn:ED; [exists [], g; split; [reflexivity|]; exists []; split; [constructor|constructor]|]. cbn [List.length seq]. rewrite <- ED in *.
      change (0%nat :: seq 1 (length data')) with (seq 0 (length (e0 :: data'))). rewrite <- ED. pose proof (perm_ok (seq 0 (length data)) g) as HP.
      destruct (permutation (seq 0 (length data)) g) as [p g1]. cbn [fst] in HP. destruct (Z.eqb_spec bs 0); [lia|]. destruct (Z.ltb_spec bs 0); [lia|].
      exists (slices (length p) (Z.to_nat bs) p), g1. split; [reflexivity|]. exists (map f p). split.
      - transitivity (map f (seq 0 (length data))); [apply Permutation_map, HP|]. unfold f. rewrite ED, map_nth_seq. reflexivity.
      - apply cut_map. apply slices_cut; [lia|reflexivity]. }
    destruct X as (batches & g1 & -> & order & HP & HC). cbn [bind].
    rewrite (fold_left_map (fun m b => sgd_step lr C l2 b m) (map f)).
    destruct (fold_steps lr l2 C (map (map f) batches) m Hw) as [H1 H2].
    { intros b e Hbb He. apply Hx. apply (Permutation_in e HP). exact (cut_in _ _ _ HC b e Hbb He). }
    destruct (IH _ g1 H2) as (m' & g' & E & HT & HL). exists m', g'. split; [exact E|]. split; [|exact HL].
    eapply trained_S; [|exact HT]. exists order, (map (map f) batches). split; [exact HP|]. split; [exact HC|exact H1].
Qed.

End Fit.

(* ---- guesses *)
Definition put_all (v : Q) (is : list nat) (l : list Q) : list Q := fold_left (fun l i => update l i (fun _ => v)) is l.
Lemma put_all_length v is : forall l, length (put_all v is l) = length l.
Proof. induction is as [|i is IH]; intros l; cbn; [reflexivity|]. unfold put_all in IH. rewrite IH. apply update_length. Qed.
Lemma put_all_nth v is : forall l j, (j < length l)%nat -> (forall i, In i is -> (i < length l)%nat) -> nth j (put_all v is l) 0 = if in_dec Nat.eq_dec j is then v else nth j l 0.
Proof.
  induction is as [|i is IH]; intros l j Hj Hi; [reflexivity|]. change (put_all v (i :: is) l) with (put_all v is (update l i (fun _ => v))).
  rewrite IH; [|now rewrite update_length|intros i' Hi'; rewrite update_length; apply Hi; now right].
  rewrite (update_nth l i (fun _ => v) j 0) by (apply Hi; now left).
  destruct (in_dec Nat.eq_dec j is) as [H|H]; destruct (in_dec Nat.eq_dec j (i :: is)) as [H'|H']; try reflexivity.
  - exfalso. apply H'. now right.
  - destruct H' as [->|H']; [|contradiction]. now rewrite Nat.eqb_refl.
  - destruct (Nat.eqb_spec j i) as [E|_]; [exfalso; apply H'; now left|reflexivity].
Qed.
Lemma same_sign_iff scores : (forallb (fun s => Qle_bool 0 s) scores || forallb (fun s => negb (Qle_bool 0 s)) scores = true) <-> same_sign scores.
Proof.
  rewrite orb_true_iff, !forallb_forall. unfold same_sign. split; intros [H|H]; [left|right|left|right]; intros s Hs; specialize (H s Hs).
  - now apply Qle_bool_iff.
  - destruct (Qle_bool 0 s) eqn:E; [discriminate|]. apply Qnot_le_lt. intros L. apply Qle_bool_iff in L. congruence.
  - now apply Qle_bool_iff.
  - destruct (Qle_bool 0 s) eqn:E; [|reflexivity]. apply Qle_bool_iff in E. lra.
Qed.
Lemma guessed_ext balance s s' signs : length s = length s' -> (forall i, nth i s 0 == nth i s' 0) -> guessed balance s signs -> guessed balance s' signs.
Proof.
  intros HL HE. assert (SS : same_sign s' -> same_sign s).
  { intros [H|H]; [left|right]; intros x Hx; apply (In_nth _ _ 0) in Hx as (i & Hi & <-); rewrite HE; apply H, nth_In; lia. }
  assert (SS' : same_sign s -> same_sign s').
  { intros [H|H]; [left|right]; intros x Hx; apply (In_nth _ _ 0) in Hx as (i & Hi & <-); rewrite <- HE; apply H, nth_In; lia. }
  intros (H1 & H2 & H3). unfold guessed. rewrite <- HL. split; [exact H1|]. split.
  - intros N i Hi. destruct (H2 ltac:(tauto) i Hi) as [A B]. split; intros H; [apply A|apply B]; rewrite HE; exact H.
  - intros [Hb S]. destruct (H3 ltac:(tauto)) as (A & B & C). split; [exact A|]. split; [exact B|]. intros i j Hi Hj Ei Ej. rewrite <- !HE. now apply C.
Qed.

Section Guess.
Variable argsort : list Q -> list nat.
Hypothesis argsort_ok : sorts_positions argsort.
Lemma guesses_guessed balance scores : guessed balance scores (guesses argsort balance scores).
Proof using All.
  unfold guessed, guesses. set (y0 := map (fun s => if Qle_bool 0 s then 1 else -(1)) scores).
  assert (L0 : length y0 = length scores) by apply map_length.
  destruct (balance && _) eqn:EB.
  - apply andb_true_iff in EB as [-> EB]. pose proof (proj1 (same_sign_iff scores) EB) as SS.
    destruct (argsort_ok (map Qabs scores)) as [HP HS]. rewrite map_length in HP, HS. set (order := argsort (map Qabs scores)) in *. set (m := length scores) in *.
    assert (LO : length order = m) by (rewrite (Permutation_length HP); apply seq_length). rewrite LO. set (half := Nat.div m 2).
    assert (Hh : (half <= m)%nat) by (apply Nat.div_le_upper_bound; lia).
    fold (put_all (-(1)) (firstn half order) y0). set (y1 := put_all (-(1)) (firstn half order) y0). fold (put_all 1 (skipn half order) y1). set (y2 := put_all 1 (skipn half order) y1).
    assert (L1 : length y1 = m) by (unfold y1; rewrite put_all_length; exact L0).
    assert (L2 : length y2 = m) by (unfold y2; rewrite put_all_length; exact L1).
    assert (RG : forall i, In i order -> (i < m)%nat) by (intros i Hi; apply (Permutation_in i HP) in Hi; apply in_seq in Hi; lia).
    assert (ND : NoDup order) by (apply (Permutation_NoDup (Permutation_sym HP)), seq_NoDup).
    assert (FS : forall i, In i order <-> In i (firstn half order) \/ In i (skipn half order)) by (intros i; rewrite <- in_app_iff, firstn_skipn; reflexivity).
    assert (DJ : forall i, In i (firstn half order) -> ~ In i (skipn half order)).
    { intros i H1 H2. rewrite <- (firstn_skipn half order) in ND. revert ND H1 H2. generalize (firstn half order) (skipn half order). induction l as [|a l IH]; intros l' N H1 H2; [destruct H1|]. cbn in N. inversion N as [|? ? Hn N']; subst.
      destruct H1 as [->|H1]; [apply Hn, in_or_app; now right|exact (IH l' N' H1 H2)]. }
    assert (V : forall i, (i < m)%nat -> nth i y2 0 = if in_dec Nat.eq_dec i (firstn half order) then -(1) else 1).
    { intros i Hi. unfold y2. rewrite put_all_nth; [|rewrite L1; exact Hi|intros i' Hi'; rewrite L1; apply RG, FS; now right].
      destruct (in_dec Nat.eq_dec i (skipn half order)) as [H|H]; destruct (in_dec Nat.eq_dec i (firstn half order)) as [H'|H']; try reflexivity.
      - exfalso. exact (DJ i H' H).
      - unfold y1. rewrite put_all_nth; [|rewrite L0; exact Hi|intros i' Hi'; rewrite L0; apply RG, FS; now left]. destruct (in_dec Nat.eq_dec i (firstn half order)); [reflexivity|contradiction].
      - exfalso. assert (In i order) by (apply (Permutation_in i (Permutation_sym HP)), in_seq; lia). apply FS in H0 as [H0|H0]; contradiction. }
    split; [exact L2|]. split; [intros H; exfalso; apply H; split; [reflexivity|exact SS]|]. intros _.
    assert (Y2 : y2 = map (fun i => if in_dec Nat.eq_dec i (firstn half order) then -(1) else 1) (seq 0 m)).
    { apply (nth_ext _ _ 0 0); [rewrite map_length, seq_length; exact L2|]. intros i Hi. rewrite L2 in Hi. rewrite (nth_map_in _ (seq 0 m) i 0%nat) by (rewrite seq_length; exact Hi). rewrite seq_nth by exact Hi. cbn [Nat.add]. apply V, Hi. }
    split; [|split].
    + intros s Hs. rewrite Y2 in Hs. apply in_map_iff in Hs as (i & <- & _). destruct (in_dec _ _ _); [now right|now left].
    + rewrite Y2. assert (E : length (filter (fun s => Qeq_bool s (-(1))) (map (fun i => if in_dec Nat.eq_dec i (firstn half order) then -(1) else 1) (seq 0 m))) = length (filter (fun i => if in_dec Nat.eq_dec i (firstn half order) then true else false) (seq 0 m))).
      { generalize (seq 0 m). induction l as [|i l IH]; [reflexivity|]. cbn [map filter]. destruct (in_dec Nat.eq_dec i (firstn half order)); cbn [Qeq_bool]; [change (Qeq_bool (-(1)) (-(1))) with true|change (Qeq_bool 1 (-(1))) with false]; cbn [List.length]; now rewrite IH. }
      rewrite E. transitivity (length (firstn half order)); [|apply firstn_length_le; lia]. apply Permutation_length. apply NoDup_Permutation.
      * apply NoDup_filter, seq_NoDup.
      * rewrite <- (firstn_skipn half order) in ND. clear -ND. induction (firstn half order) as [|a l IH]; [constructor|]. cbn in ND. inversion ND as [|? ? Hn N]; subst. constructor; [intros H; apply Hn, in_or_app; now left|exact (IH N)].
      * intros i. rewrite filter_In. destruct (in_dec Nat.eq_dec i (firstn half order)) as [H|H]; split; try tauto.
        { intros _. split; [|reflexivity]. apply in_seq. assert (In i order) by (apply FS; now left). specialize (RG i H0). lia. }
        { intros [_ X]. discriminate. }
    + intros i j Hi Hj Ei Ej. rewrite V in Ei, Ej by assumption. destruct (in_dec Nat.eq_dec i (firstn half order)) as [Fi|]; [|discriminate]. destruct (in_dec Nat.eq_dec j (firstn half order)) as [|Fj]; [discriminate|].
      assert (Sj : In j (skipn half order)) by (assert (In j order) by (apply (Permutation_in j (Permutation_sym HP)), in_seq; lia); apply FS in H as [H|H]; [contradiction|exact H]).
      apply (In_nth _ _ 0%nat) in Fi as (a & Ha & Ea). apply (In_nth _ _ 0%nat) in Sj as (b & Hb & Eb). rewrite firstn_length in Ha. rewrite skipn_length in Hb.
      assert (Ea' : nth a order 0%nat = i) by (rewrite <- Ea, <- (firstn_skipn half order) at 1; apply app_nth1; rewrite firstn_length; lia).
      assert (Eb' : nth (half + b) order 0%nat = j).
      { rewrite <- Eb. rewrite <- (firstn_skipn half order) at 1. rewrite app_nth2; rewrite firstn_length_le by lia; [f_equal; lia|lia]. }
      specialize (HS a (half + b)%nat ltac:(lia)). rewrite Ea', Eb' in HS. rewrite !(nth_map_in Qabs scores _ 0) in HS by assumption. exact HS.
  - split; [exact L0|]. split.
    + intros _ i Hi. unfold y0. rewrite (nth_map_in _ scores i 0) by exact Hi. split; intros H.
      * assert (E : Qle_bool 0 (nth i scores 0) = true) by now apply Qle_bool_iff. now rewrite E.
      * destruct (Qle_bool 0 (nth i scores 0)) eqn:E; [apply Qle_bool_iff in E; lra|reflexivity].
    + intros [-> SS]. apply same_sign_iff in SS. rewrite SS in EB. discriminate.
Qed.
End Guess.

(* ---- the rounds *)
Section Rounds.
Variable G : Type.
Variable permutation : list nat -> G -> list nat * G.
Variable argsort : list Q -> list nat.
Hypothesis perm_ok : forall idx g, Permutation (fst (permutation idx g)) idx.
Hypothesis argsort_ok : sorts_positions argsort.
Variable d : nat.
Lemma rounds_improved sp lab unl : (0 < ts_batch sp)%Z -> (forall e, In e lab -> length (fst e) = d) -> (forall x, In x unl -> length x = d) -> unl <> [] ->
  forall k C m g, length (sv_w m) = d ->
  exists m', rounds G permutation argsort k sp lab unl C m g = Ok m' /\
    improved d (ts_lr sp) (ts_l2 sp) (Z.to_nat (ts_batch sp)) (Z.to_nat (ts_epochs sp)) (ts_balance sp) (ts_C_l sp) (ts_C_u_max sp) lab unl k C (mach m) (mach m') /\ length (sv_w m') = d.
Proof using All.
  intros Hb Hl Hu Hne. induction k as [|k IH]; intros C m g Hw; cbn [rounds]; [exists m; split; [reflexivity|]; split; [constructor|exact Hw]|].
  destruct unl as [|u0 unl'] eqn:EU; [contradiction|]. rewrite <- EU in *. clear EU.
  set (y_u := guesses argsort (ts_balance sp) (map (score m) unl)). set (rep := Z.max 1 (round_even (ts_C_l sp / Qmax C smallest_C))).
  set (data := concat (map (fun e => repeat e (Z.to_nat rep)) lab) ++ combine unl y_u).
  destruct (fit_sgd_trained G permutation perm_ok d (ts_lr sp) (ts_l2 sp) (Qmax C smallest_C) (ts_batch sp) data Hb) with (epochs := Z.to_nat (ts_epochs sp)) (m := m) (g := g) as (m1 & g1 & E & HT & HL).
  - intros [x s] He. unfold data in He. apply in_app_iff in He as [He|He]; [|apply in_combine_l in He; apply Hu, He].
    apply in_concat in He as (r & Hr & He). apply in_map_iff in Hr as (e & <- & Hin). apply repeat_spec in He. subst e. exact (Hl _ Hin).
  - exact Hw.
  - rewrite E. cbn [bind]. destruct (IH (Qmin (ts_C_u_max sp) (C * 10)) m1 g1 HL) as (m' & E' & HI & HL'). exists m'. split; [exact E'|]. split; [|exact HL'].
    apply improved_S with (m1 := mach m1) (signs := y_u) (r := Z.to_nat rep).
    + apply (guessed_ext _ (map (score m) unl)); [now rewrite !map_length| |apply guesses_guessed, argsort_ok].
      intros i. destruct (Nat.lt_ge_cases i (length unl)) as [Hi|Hi].
      * rewrite !(nth_map_in _ unl i []) by exact Hi. apply score_decision; [exact Hw|apply Hu, nth_In, Hi].
      * rewrite !nth_overflow by (rewrite map_length; exact Hi). reflexivity.
    + exists (round_even (ts_C_l sp / Qmax C smallest_C)). split; [apply round_even_nearest|]. unfold rep. lia.
    + exact HT.
    + replace (Qmin (ts_C_u_max sp) (10 * C)) with (Qmin (ts_C_u_max sp) (C * 10)); [exact HI|]. f_equal. unfold Qmult. cbn [Qnum Qden]. f_equal; lia.
Qed.
End Rounds.

(* ---- the classes *)
Lemma ascending_two a b : (a < b)%Z -> ascending [a; b].
Proof. intros H. repeat constructor; exact H. Qed.
Lemma nonneg_classes_two l a b : nonneg_classes l = [a; b] <-> two_classes l a b.
Proof.
  unfold nonneg_classes. set (f := filter (fun v => (v >=? 0)%Z) l).
  assert (HI : forall v, In v (uniqueZ f) <-> In v l /\ (0 <= v)%Z) by (intros v; unfold f; rewrite uniqueZ_In, filter_In; intuition lia).
  split.
  - intros E. rewrite E in HI. pose proof (uniqueZ_ascending f) as A. rewrite E in A.
    assert (a < b)%Z by (inversion A as [|? ? A1 A2]; inversion A2; assumption).
    destruct (proj1 (HI a) (or_introl eq_refl)) as [Ia Pa]. destruct (proj1 (HI b) (or_intror (or_introl eq_refl))) as [Ib Pb].
    split; [lia|]. split; [exact Ia|]. split; [exact Ib|]. intros v Hv Pv. destruct (proj2 (HI v) (conj Hv Pv)) as [->|[->|[]]]; auto.
  - intros (P & Ia & Ib & H). apply ascending_ext; [apply uniqueZ_ascending|apply ascending_two; lia|].
    intros v. rewrite HI. cbn [In]. split; [intros [Hv Pv]; destruct (H v Hv Pv); subst; auto|intros [<-|[<-|[]]]; split; try assumption; lia].
Qed.
Lemma lenZ_two (l : list Z) : lenZ l = 2%Z -> exists a b, l = [a; b].
Proof. destruct l as [|a [|b [|c l]]]; unfold lenZ; cbn; intros H; try lia. now exists a, b. Qed.
Lemma flatnonzero_chosen mask : flatnonzero mask = chosen mask.
Proof.
  unfold flatnonzero, chosen.
  assert (X : forall s m, map fst (filter snd (combine (seq s (length m)) m)) = filter (fun i => nth (i - s) m false) (seq s (length m))).
  { intros s m. revert s. induction m as [|b m IH]; intros s; cbn [List.length seq combine filter snd]; [reflexivity|]. rewrite Nat.sub_diag. cbn [nth].
    assert (E : filter (fun i => nth (i - s) (b :: m) false) (seq (S s) (length m)) = filter (fun i => nth (i - S s) m false) (seq (S s) (length m))).
    { apply filter_ext_in. intros i Hi. apply in_seq in Hi. replace (i - s)%nat with (S (i - S s)) by lia. reflexivity. }
    destruct b; cbn [map fst]; rewrite IH, <- E; reflexivity. }
  rewrite (X O mask). apply filter_ext. intros i. now rewrite Nat.sub_0_r.
Qed.
Lemma chosen_In mask i : In i (chosen mask) <-> nth i mask false = true.
Proof. rewrite <- flatnonzero_chosen. apply flatnonzero_In. Qed.
Lemma shown_masked y train v : length train = length y -> In v (masked train y) <-> In v (shown y train).
Proof.
  intros HL. unfold shown. rewrite in_map_iff, (masked_In train y v (-1)%Z HL). split.
  - intros (i & Hi & Hm & <-). exists i. split; [reflexivity|]. now apply chosen_In.
  - intros (i & <- & Hi). apply chosen_In in Hi. exists i. split; [|split; [exact Hi|reflexivity]]. destruct (Nat.lt_ge_cases i (length y)) as [|H]; [assumption|]. rewrite nth_overflow in Hi by lia. discriminate.
Qed.
Lemma two_classes_incl l l' a b : (forall v, In v l <-> In v l') -> two_classes l a b -> two_classes l' a b.
Proof. intros HE (P & Ia & Ib & H). split; [exact P|]. split; [now apply HE|]. split; [now apply HE|]. intros v Hv. apply H. now apply HE. Qed.
Lemma two_classes_fun l a b a' b' : two_classes l a b -> two_classes l a' b' -> a = a' /\ b = b'.
Proof. intros H1 H2. apply nonneg_classes_two in H1, H2. rewrite H1 in H2. now injection H2. Qed.
Lemma encode_binary_iff y train full r : length train = length y ->
  (encode_binary y train full = Ok r <-> exists neg pos, classes_are y train full neg pos /\ r = (map (sign_of neg pos) y, (neg, pos))).
Proof.
  intros HL. unfold encode_binary, classes_are.
  assert (SM : forall v, In v (masked train y) <-> In v (shown y train)) by (intros; now apply shown_masked).
  assert (ENC : forall a b, (a < b)%Z -> map (fun v => if (v =? b)%Z then 1 else if (v =? a)%Z then -(1) else 0) y = map (sign_of a b) y).
  { intros a b Hab. apply map_ext. intros v. unfold sign_of. destruct (Z.eqb_spec v b), (Z.eqb_spec v a); try reflexivity. lia. }
  destruct (Z.eqb_spec (lenZ (nonneg_classes (masked train y))) 2) as [H2|H2].
  - destruct (lenZ_two _ H2) as (a & b & E). rewrite E. pose proof (proj1 (nonneg_classes_two _ _ _) E) as TC. pose proof (two_classes_incl _ _ a b SM TC) as TC'.
    rewrite ENC by (destruct TC; lia). split.
    + intros [= <-]. exists a, b. split; [now left|reflexivity].
    + intros (neg & pos & [HT|[HN _]] & ->); [|exfalso; exact (HN a b TC')]. destruct (two_classes_fun _ _ _ _ _ TC' HT) as [-> ->]. reflexivity.
  - assert (NT : forall a b, ~ two_classes (shown y train) a b).
    { intros a b HT. apply (two_classes_incl _ (masked train y)) in HT; [|intros v; symmetry; apply SM]. apply nonneg_classes_two in HT. rewrite HT in H2. now apply H2. }
    split.
    + destruct (nonneg_classes full) as [|a [|b [|c l]]] eqn:E; try discriminate. pose proof (proj1 (nonneg_classes_two _ _ _) E) as TC. rewrite ENC by (destruct TC; lia).
      intros [= <-]. exists a, b. split; [right; split; [exact NT|exact TC]|reflexivity].
    + intros (neg & pos & [HT|[_ HT]] & ->); [exfalso; exact (NT _ _ HT)|]. rewrite (proj2 (nonneg_classes_two _ _ _) HT). rewrite ENC by (destruct HT; lia). reflexivity.
Qed.

(* ---- when a fit returns *)
Section Returns.
Variable G : Type.
Variable permutation : list nat -> G -> list nat * G.
Variable argsort : list Q -> list nat.
Lemma fit_sgd_returns epochs data bs lr C l2 : bs <> 0%Z -> forall m g, exists r, fit_sgd G permutation epochs data bs lr C l2 m g = Ok r.
Proof using Type.
  intros Hb. induction epochs as [|n IH]; intros m g; cbn [fit_sgd]; [eexists; reflexivity|].
  assert (X : exists p, batch_indices G permutation (seq 0 (length data)) bs g = Ok p).
  { unfold batch_indices. destruct (seq 0 (length data)); [eexists; reflexivity|]. destruct (permutation _ g). destruct (Z.eqb_spec bs 0); [contradiction|]. destruct (bs <? 0)%Z; eexists; reflexivity. }
  destruct X as ([b g'] & ->). cbn [bind]. apply IH.
Qed.
Lemma fit_sgd_zero epochs data lr C l2 m g : data <> [] -> epochs <> O -> fit_sgd G permutation epochs data 0 lr C l2 m g = Err ValueError.
Proof using Type.
  intros Hd He. destruct epochs as [|n]; [contradiction|]. cbn [fit_sgd]. unfold batch_indices. destruct data as [|e data]; [contradiction|]. cbn [List.length seq]. destruct (permutation _ g). reflexivity.
Qed.
Lemma rounds_returns sp lab unl : ts_batch sp <> 0%Z \/ (ts_epochs sp <= 0)%Z -> forall k C m g, exists m', rounds G permutation argsort k sp lab unl C m g = Ok m'.
Proof using Type.
  intros Hb. induction k as [|k IH]; intros C m g; cbn [rounds]; [eexists; reflexivity|]. destruct unl as [|u unl']; [eexists; reflexivity|].
  set (data := concat _ ++ _).
  assert (X : exists r, fit_sgd G permutation (Z.to_nat (ts_epochs sp)) data (ts_batch sp) (ts_lr sp) (Qmax C smallest_C) (ts_l2 sp) m g = Ok r).
  { destruct Hb as [Hb|He]; [now apply fit_sgd_returns|]. replace (Z.to_nat (ts_epochs sp)) with O by lia. eexists; reflexivity. }
  destruct X as ([m1 g1] & ->). cbn [bind]. apply IH.
Qed.
Lemma existsb_nth (l : list bool) : existsb (fun b => b) l = true <-> exists i, nth i l false = true.
Proof using Type.
  rewrite existsb_exists. split.
  - intros (b & Hin & ->). apply (In_nth _ _ false) in Hin as (i & _ & E). now exists i.
  - intros (i & E). exists true. split; [|reflexivity]. rewrite <- E. apply nth_In. destruct (Nat.lt_ge_cases i (length l)); [assumption|]. rewrite nth_overflow in E by lia. discriminate.
Qed.
Lemma tsvm_fit_shape sp d w0 g r : tsvm_fit G permutation argsort sp d w0 g = Ok r <->
  exists train neg pos m0 g0 m, trainable d train neg pos /\
    fit_sgd G permutation (Z.to_nat (ts_epochs sp)) (labelled_rows d train neg pos) (ts_batch sp) (ts_lr sp) (ts_C_l sp) (ts_l2 sp) {| sv_w := w0; sv_b := 0 |} g = Ok (m0, g0) /\
    rounds G permutation argsort (Z.to_nat (ts_max_iter sp)) sp (labelled_rows d train neg pos) (unlabelled_rows d train) (1 # 1000) m0 g0 = Ok m /\ r = ((neg, pos), m).
Proof using Type.
  unfold tsvm_fit, trainable, labelled_rows, unlabelled_rows, unlabelled_mask. fold (all_labels d). destruct (Z.eqb_spec (lenZ (td_X d)) (lenZ (td_y d))) as [HX|HX]; cbn [negb].
  2: { split; [discriminate|]. intros (? & ? & ? & ? & ? & ? & (H & _) & _). exfalso. apply HX. unfold lenZ. now rewrite H. }
  assert (HX' : length (td_X d) = length (td_y d)) by (unfold lenZ in HX; lia).
  set (masks := match td_train d with Some m => [m] | None => [] end ++ match td_unlabeled d with Some m => [m] | None => [] end ++ td_others d).
  assert (LAB : forall train neg pos, length train = length (td_y d) -> map (fun i => (nth i (td_X d) [], nth i (map (sign_of neg pos) (td_y d)) 0)) (flatnonzero train) = map (fun i => (nth i (td_X d) [], sign_of neg pos (nth i (td_y d) (-1)%Z))) (chosen train)).
  { intros train neg pos HL. rewrite flatnonzero_chosen. apply map_ext_in. intros i Hi. apply chosen_In in Hi. f_equal. rewrite (nth_map_in _ (td_y d) i (-1)%Z); [reflexivity|]. rewrite <- HL. destruct (Nat.lt_ge_cases i (length train)); [assumption|]. rewrite nth_overflow in Hi by lia. discriminate. }
  destruct (validate_node (td_y d) (td_edges d) masks) as [[]|e] eqn:EV; cbn [bind].
  - apply validate_node_iff in EV as (HC & HE & HM). destruct (td_train d) as [train|] eqn:ET; [|split; [discriminate|intros (? & ? & ? & ? & ? & ? & (_ & _ & _ & H & _) & _); discriminate H]].
    assert (HL : length train = length (td_y d)) by (apply HM; unfold masks; apply in_app_iff; left; now left).
    destruct (existsb (fun b => b) train) eqn:EX; cbn [negb].
    2: { split; [discriminate|]. intros (t & ? & ? & ? & ? & ? & (_ & _ & _ & [= <-] & _ & _ & _ & H & _) & _). apply existsb_nth in H. congruence. }
    pose proof (proj1 (existsb_nth train) EX) as EX'.
    assert (HU : forall u, td_unlabeled d = Some u -> length u = length (td_y d)) by (intros u Hu; apply HM; unfold masks; rewrite Hu; apply in_app_iff; right; now left).
    assert (HO : forall m, In m (td_others d) -> length m = length (td_y d)) by (intros m Hm; apply HM; unfold masks; apply in_app_iff; right; apply in_app_iff; now right).
    destruct (encode_binary (td_y d) train (all_labels d)) as [[yp cl]|e] eqn:EB; cbn [bind].
    + pose proof (proj1 (encode_binary_iff _ _ _ _ HL) EB) as (neg & pos & HCL & [= -> ->]). rewrite LAB by exact HL. rewrite flatnonzero_chosen.
      destruct (fit_sgd _ _ _ _ _ _ _ _ _ g) as [[m0 g0]|e] eqn:EF; cbn [bind].
      * destruct (rounds _ _ _ _ _ _ _ _ m0 g0) as [m|e] eqn:ER; cbn [bind].
        { split.
          - intros [= <-]. exists train, neg, pos, m0, g0, m. split; [|split; [exact EF|split; [exact ER|reflexivity]]]. repeat (split; [assumption || reflexivity|]). exact HCL.
          - intros (t & n' & p' & m0' & g0' & m' & (_ & _ & _ & [= <-] & _ & _ & _ & _ & HCL') & EF' & ER' & ->).
            assert (n' = neg /\ p' = pos) as [-> ->]; [|congruence].
            pose proof (proj2 (encode_binary_iff _ _ _ _ HL) (ex_intro _ n' (ex_intro _ p' (conj HCL' eq_refl)))) as EB'. rewrite EB in EB'. injection EB' as _ <- <-. split; reflexivity. }
        { split; [discriminate|]. intros (t & n' & p' & m0' & g0' & m' & (_ & _ & _ & [= <-] & _ & _ & _ & _ & HCL') & EF' & ER' & ->).
          pose proof (proj2 (encode_binary_iff _ _ _ _ HL) (ex_intro _ n' (ex_intro _ p' (conj HCL' eq_refl)))) as EB'. rewrite EB in EB'. injection EB' as _ <- <-. congruence. }
      * split; [discriminate|]. intros (t & n' & p' & m0' & g0' & m' & (_ & _ & _ & [= <-] & _ & _ & _ & _ & HCL') & EF' & ER' & ->).
          pose proof (proj2 (encode_binary_iff _ _ _ _ HL) (ex_intro _ n' (ex_intro _ p' (conj HCL' eq_refl)))) as EB'. rewrite EB in EB'. injection EB' as _ <- <-. congruence.
    + split; [discriminate|]. intros (t & n' & p' & m0' & g0' & m' & (_ & _ & _ & [= <-] & _ & _ & _ & _ & HCL') & _).
      pose proof (proj2 (encode_binary_iff _ _ _ _ HL) (ex_intro _ n' (ex_intro _ p' (conj HCL' eq_refl)))) as EB'. congruence.
  - split; [discriminate|]. intros (train & ? & ? & ? & ? & ? & (_ & HC & HE & ET & HL & HU & HO & _) & _). exfalso.
    assert (validate_node (td_y d) (td_edges d) masks = Ok tt); [|congruence]. apply validate_node_iff. split; [exact HC|]. split; [exact HE|].
    intros m Hm. unfold masks in Hm. rewrite ET in Hm. apply in_app_iff in Hm as [[<-|[]]|Hm]; [exact HL|]. apply in_app_iff in Hm as [Hm|Hm]; [|now apply HO]. destruct (td_unlabeled d) as [u|]; [destruct Hm as [<-|[]]; now apply HU|destruct Hm].
Qed.
Lemma tsvm_fit_returns sp d w0 g : (exists r, tsvm_fit G permutation argsort sp d w0 g = Ok r) <->
  (exists train neg pos, trainable d train neg pos) /\ (ts_batch sp <> 0%Z \/ (ts_epochs sp <= 0)%Z).
Proof using Type.
  split.
  - intros (r & H). apply tsvm_fit_shape in H as (train & neg & pos & m0 & g0 & m & HT & EF & _). split; [now exists train, neg, pos|].
    destruct (Z.eq_dec (ts_batch sp) 0) as [E|]; [|now left]. right. destruct (Z.le_gt_cases (ts_epochs sp) 0); [assumption|]. exfalso. rewrite E, fit_sgd_zero in EF; [discriminate| |lia].
    destruct HT as (_ & _ & _ & _ & _ & _ & _ & (i & Hi) & _). unfold labelled_rows. apply chosen_In in Hi. destruct (chosen train); [destruct Hi|discriminate].
  - intros ((train & neg & pos & HT) & Hb).
    assert (X : exists r, fit_sgd G permutation (Z.to_nat (ts_epochs sp)) (labelled_rows d train neg pos) (ts_batch sp) (ts_lr sp) (ts_C_l sp) (ts_l2 sp) {| sv_w := w0; sv_b := 0 |} g = Ok r).
    { destruct Hb as [Hb|He]; [now apply fit_sgd_returns|]. replace (Z.to_nat (ts_epochs sp)) with O by lia. eexists; reflexivity. }
    destruct X as ([m0 g0] & EF). destruct (rounds_returns sp (labelled_rows d train neg pos) (unlabelled_rows d train) Hb (Z.to_nat (ts_max_iter sp)) (1 # 1000) m0 g0) as (m & ER).
    exists ((neg, pos), m). apply tsvm_fit_shape. exists train, neg, pos, m0, g0, m. auto.
Qed.
End Returns.

(* ---- a step goes against a subgradient *)
Lemma decision_diff d m m' x : decision d m' x - decision d m x == Qsum (map (fun j => nth j x 0 * (nth j (fst m') 0 - nth j (fst m) 0)) (seq 0 d)) + (snd m' - snd m).
Proof.
  unfold decision. transitivity (Qsum (map (fun j => nth j (fst m') 0 * nth j x 0) (seq 0 d)) - Qsum (map (fun j => nth j (fst m) 0 * nth j x 0) (seq 0 d)) + (snd m' - snd m)); [ring|].
  apply Qplus_comp; [|reflexivity]. rewrite <- Qsum_minus. apply Qsum_ext. intros; ring.
Qed.
Lemma squares_gap d (w w' : nat -> Q) : Qsum (map (fun j => w j * w j) (seq 0 d)) + 2 * Qsum (map (fun j => w j * (w' j - w j)) (seq 0 d)) <= Qsum (map (fun j => w' j * w' j) (seq 0 d)).
Proof.
  rewrite <- Qsum_scale, <- Qsum_plus. apply Qsum_le. intros j _. assert (0 <= (w' j - w j) * (w' j - w j)); [|lra].
  destruct (Qlt_le_dec (w' j - w j) 0); [|apply Qmult_le_0_compat; assumption]. setoid_replace ((w' j - w j) * (w' j - w j)) with ((w j - w' j) * (w j - w' j)) by ring. apply Qmult_le_0_compat; lra.
Qed.
Lemma inv_len_nonneg {A} (l : list A) : 0 <= / inject_Z (Z.of_nat (length l)).
Proof. apply Qinv_le_0_compat. change 0 with (inject_Z 0). rewrite <- Zle_Qle. lia. Qed.
Lemma hinge_gap d m (v : list (list Q * Q)) m' : (forall e, In e v -> violated d m e = true) ->
  average (map (hinge d m) v) - (Qsum (map (fun j => average (map (fun e => snd e * nth j (fst e) 0) v) * (nth j (fst m') 0 - nth j (fst m) 0)) (seq 0 d)) + average (map snd v) * (snd m' - snd m)) <= average (map (hinge d m') v).
Proof.
  intros Hv. unfold average. rewrite !map_length. set (k := / inject_Z (Z.of_nat (length v))). pose proof (inv_len_nonneg v) as Hk. fold k in Hk.
  assert (SW : Qsum (map (fun j => Qsum (map (fun e => snd e * nth j (fst e) 0) v) / inject_Z (Z.of_nat (length (map (fun e => snd e * nth j (fst e) 0) v))) * (nth j (fst m') 0 - nth j (fst m) 0)) (seq 0 d))
             == Qsum (map (fun e => snd e * Qsum (map (fun j => nth j (fst e) 0 * (nth j (fst m') 0 - nth j (fst m) 0)) (seq 0 d))) v) * k).
  { transitivity (Qsum (map (fun j => Qsum (map (fun e => snd e * nth j (fst e) 0 * (nth j (fst m') 0 - nth j (fst m) 0)) v)) (seq 0 d)) * k).
    - rewrite <- Qsum_scale_r. apply Qsum_ext. intros j _. rewrite map_length. fold k. rewrite Qsum_scale_r. unfold Qdiv. fold k. ring.
    - apply Qmult_comp; [|reflexivity]. rewrite Qsum_swap. apply Qsum_ext. intros e _. rewrite <- Qsum_scale. apply Qsum_ext. intros; ring. }
  rewrite SW. unfold Qdiv. fold k.
  assert (X : Qsum (map (hinge d m) v) - (Qsum (map (fun e => snd e * Qsum (map (fun j => nth j (fst e) 0 * (nth j (fst m') 0 - nth j (fst m) 0)) (seq 0 d))) v) + Qsum (map snd v) * (snd m' - snd m)) <= Qsum (map (hinge d m') v)).
  { rewrite <- Qsum_scale_r, <- Qsum_plus, <- Qsum_minus. apply Qsum_le. intros e He. specialize (Hv e He). unfold violated in Hv. destruct (Qlt_le_dec _ _) as [Hlt|]; [|discriminate].
    pose proof (decision_diff d m m' (fst e)) as D. unfold hinge. rewrite (Q.max_r 0 (1 - snd e * decision d m (fst e))) by lra.
    apply Qle_trans with (1 - snd e * decision d m' (fst e)); [|apply Q.le_max_r].
    assert (D' : snd e * decision d m' (fst e) == snd e * decision d m (fst e) + (snd e * Qsum (map (fun j => nth j (fst e) 0 * (nth j (fst m') 0 - nth j (fst m) 0)) (seq 0 d)) + snd e * (snd m' - snd m))).
    { rewrite <- Qmult_plus_distr_r, <- D. ring. }
    rewrite D'. lra. }
  apply (Qmult_le_compat_r _ _ k) in X; [|exact Hk]. eapply Qle_trans; [|exact X]. apply Qle_lteq. right. ring.
Qed.
Lemma step_subgradient d l2 C batch m : 0 <= l2 -> 0 <= C ->
  subgradient d (objective d l2 C (filter (violated d m) batch)) m
    (fun j => l2 * nth j (fst m) 0 - C * average (map (fun e => snd e * nth j (fst e) 0) (filter (violated d m) batch))) (- C * average (map snd (filter (violated d m) batch))).
Proof.
  intros Hl HC m'. set (v := filter (violated d m) batch). unfold objective.
  pose proof (hinge_gap d m v m' ltac:(intros e He; unfold v in He; apply filter_In in He; tauto)) as H1.
  pose proof (squares_gap d (fun j => nth j (fst m) 0) (fun j => nth j (fst m') 0)) as H2. cbn beta in H2.
  set (A := Qsum (map (fun j => nth j (fst m) 0 * (nth j (fst m') 0 - nth j (fst m) 0)) (seq 0 d))) in *.
  set (B := Qsum (map (fun j => average (map (fun e => snd e * nth j (fst e) 0) v) * (nth j (fst m') 0 - nth j (fst m) 0)) (seq 0 d))) in *.
  assert (E : Qsum (map (fun j => (l2 * nth j (fst m) 0 - C * average (map (fun e => snd e * nth j (fst e) 0) v)) * (nth j (fst m') 0 - nth j (fst m) 0)) (seq 0 d)) == l2 * A - C * B).
  { unfold A, B. rewrite <- !Qsum_scale, <- Qsum_minus. apply Qsum_ext. intros; ring. }
  rewrite E. set (SM := Qsum (map (fun j => nth j (fst m) 0 * nth j (fst m) 0) (seq 0 d))) in *. set (SM' := Qsum (map (fun j => nth j (fst m') 0 * nth j (fst m') 0) (seq 0 d))) in *.
  set (h := average (map (hinge d m) v)) in *. set (h' := average (map (hinge d m') v)) in *. set (a := average (map snd v)) in *. set (db := snd m' - snd m) in *.
  assert (0 <= l2 / 2 * (SM' - SM - 2 * A)) by (apply Qmult_le_0_compat; [apply Qle_shift_div_l; lra|lra]).
  assert (0 <= C * (h' - h + B + a * db)) by (apply Qmult_le_0_compat; [exact HC|lra]).
  assert (l2 / 2 * (SM' - SM - 2 * A) == l2 / 2 * SM' - l2 / 2 * SM - l2 * A) by field.
  assert (C * (h' - h + B + a * db) == C * h' - C * h + C * B + C * a * db) by ring. lra.
Qed.

(* ---- the weights stay bounded *)
Lemma average_bound l B : 0 <= B -> (forall x, In x l -> Qabs x <= B) -> Qabs (average l) <= B.
Proof.
  intros HB Hl. destruct l as [|a r]; [exact HB|]. set (L := a :: r) in *. unfold average. set (n := inject_Z (Z.of_nat (length L))).
  assert (Hn : 0 < n) by (unfold n, L; cbn [List.length]; change 0 with (inject_Z 0); rewrite <- Zlt_Qlt; lia).
  assert (X : Qabs (Qsum L) <= n * B).
  { unfold n. generalize Hl. generalize L. induction L0 as [|x M IH]; intros HM; [cbn; rewrite Qmult_0_l; apply Qle_refl|]. rewrite Qsum_cons. eapply Qle_trans; [apply Qabs_triangle|].
    assert (inject_Z (Z.of_nat (length (x :: M))) == 1 + inject_Z (Z.of_nat (length M))) as ->.
    { cbn [List.length]. rewrite Nat2Z.inj_succ. unfold Z.succ. rewrite inject_Z_plus. change (inject_Z 1) with 1. ring. }
    pose proof (IH (fun y Hy => HM y (or_intror Hy))). pose proof (HM x (or_introl eq_refl)). lra. }
  unfold Qdiv. rewrite Qabs_Qmult. rewrite (Qabs_pos (/ n)) by (apply Qlt_le_weak, Qinv_lt_0_compat, Hn). apply Qle_shift_div_r; [exact Hn|]. eapply Qle_trans; [exact X|]. apply Qle_lteq. right. ring.
Qed.
Section Bound.
Variables (d bs epochs : nat) (lr l2 K B M C_l Cmax : Q) (balance : bool) (lab : list (list Q * Q)) (unl : list (list Q)).
Hypotheses (Hlr : 0 <= lr) (Hl2 : 0 <= l2) (Hlr2 : lr * l2 <= 1) (HB : 0 <= B) (HM : K * B <= l2 * M) (HK : 1 # 1000 <= K) (HCl : 0 <= C_l <= K) (HCm : Cmax <= K).
Definition small_example (e : list Q * Q) : Prop := (forall j, (j < d)%nat -> Qabs (nth j (fst e) 0) <= B) /\ Qabs (snd e) <= 1.
Definition small_weights (m : machine) : Prop := forall j, (j < d)%nat -> Qabs (nth j (fst m) 0) <= M.
Lemma moved_small C batch m m' : 0 <= C <= K -> (forall e, In e batch -> small_example e) -> small_weights m -> moved d lr l2 C batch m m' -> small_weights m'.
Proof using All.
  intros HC Hb Hm (_ & Hw & _) j Hj. rewrite (Hw j Hj). eapply Qle_trans; [apply Qabs_triangle|]. rewrite !Qabs_Qmult.
  rewrite (Qabs_pos (1 - lr * l2)) by lra. rewrite (Qabs_pos lr) by exact Hlr. rewrite (Qabs_pos C) by apply HC.
  set (a := Qabs (average _)). assert (Ha : a <= B).
  { apply average_bound; [exact HB|]. intros x Hx. apply in_map_iff in Hx as (e & <- & He). apply filter_In in He as [He _]. destruct (Hb e He) as [H1 H2]. rewrite Qabs_Qmult.
    apply Qle_trans with (1 * Qabs (nth j (fst e) 0)); [apply Qmult_le_compat_r; [exact H2|apply Qabs_nonneg]|]. rewrite Qmult_1_l. apply H1, Hj. }
  assert (a0 : 0 <= a) by apply Qabs_nonneg. specialize (Hm j Hj).
  assert ((1 - lr * l2) * Qabs (nth j (fst m) 0) <= (1 - lr * l2) * M) by (rewrite !(Qmult_comm (1 - lr * l2)); apply Qmult_le_compat_r; [exact Hm|lra]).
  assert (C * a <= K * B). { apply Qle_trans with (K * a); [apply Qmult_le_compat_r; [apply HC|exact a0]|]. rewrite !(Qmult_comm K). apply Qmult_le_compat_r; [exact Ha|lra]. }
  assert (lr * (C * a) <= lr * (l2 * M)) by (rewrite !(Qmult_comm lr); apply Qmult_le_compat_r; [lra|exact Hlr]).
  assert (lr * C * a == lr * (C * a)) by ring. assert ((1 - lr * l2) * M == M - lr * (l2 * M)) by ring. lra.
Qed.
Lemma cut_all {A} (P : A -> Prop) n (l : list A) ps : cut n l ps -> (forall x, In x l -> P x) -> forall b x, In b ps -> In x b -> P x.
Proof using Type. intros H1 H2 b x Hb Hx. apply H2. exact (cut_in n l ps H1 b x Hb Hx). Qed.
Lemma steps_small C batches m m' : 0 <= C <= K -> (forall b e, In b batches -> In e b -> small_example e) -> small_weights m -> steps d lr l2 C batches m m' -> small_weights m'.
Proof using All.
  intros HC Hb Hm HS. induction HS as [m|b r m m1 m2 H1 HS IH]; [exact Hm|]. apply IH; [intros b' e Hb' He; apply (Hb b' e); [now right|exact He]|].
  eapply moved_small; [exact HC| |exact Hm|exact H1]. intros e He. apply (Hb b e); [now left|exact He].
Qed.
Lemma trained_small C ex n m m' : 0 <= C <= K -> (forall e, In e ex -> small_example e) -> small_weights m -> trained d lr l2 bs C ex n m m' -> small_weights m'.
Proof using All.
  intros HC He Hm HT. induction HT as [m|n m m1 m2 (o & b & HP & Hc & HS) HT IH]; [exact Hm|]. apply IH. eapply steps_small; [exact HC| |exact Hm|exact HS].
  apply (cut_all small_example bs o b Hc). intros x Hx. apply He. exact (Permutation_in x HP Hx).
Qed.
Hypothesis Hlab : forall e, In e lab -> small_example e.
Hypothesis Hunl : forall x, In x unl -> forall j, (j < d)%nat -> Qabs (nth j x 0) <= B.
Lemma guessed_signs scores signs s : guessed balance scores signs -> In s signs -> Qabs s <= 1.
Proof using Type.
  intros (HL & H1 & H2) Hs. assert (X : s = 1 \/ s = -(1)); [|destruct X as [->| ->]; apply Qle_refl].
  assert (D : (balance = true /\ same_sign scores) \/ ~ (balance = true /\ same_sign scores)).
  { destruct balance; [|right; intros [X _]; discriminate]. destruct (forallb (fun s => Qle_bool 0 s) scores || forallb (fun s => negb (Qle_bool 0 s)) scores) eqn:E; [left; split; [reflexivity|now apply same_sign_iff]|right; intros [_ X]; apply same_sign_iff in X; congruence]. }
  destruct D as [D|D]; [exact (proj1 (H2 D) s Hs)|]. apply (In_nth _ _ 0) in Hs as (i & Hi & <-). rewrite HL in Hi. destruct (H1 D i Hi) as [A B']. destruct (Qlt_le_dec (nth i scores 0) 0); [right; now apply B'|left; now apply A].
Qed.
Lemma improved_small k C m m' : C <= K -> small_weights m -> improved d lr l2 bs epochs balance C_l Cmax lab unl k C m m' -> small_weights m'.
Proof using All.
  intros HC Hm HI. induction HI as [C m|k C m m1 m2 signs r Hg Hc HT HI IH]; [exact Hm|]. apply IH.
  - eapply Qle_trans; [apply Q.le_min_l|exact HCm].
  - eapply trained_small; [| |exact Hm|exact HT].
    + split; [eapply Qle_trans; [|apply Q.le_max_r]; discriminate|]. apply Q.max_lub; [exact HC|]. eapply Qle_trans; [|exact HK]. discriminate.
    + intros [x s] He. apply in_app_iff in He as [He|He].
      * apply in_concat in He as (l & Hl & He). apply in_map_iff in Hl as (e & <- & Hin). apply repeat_spec in He. subst e. exact (Hlab _ Hin).
      * split; [exact (Hunl x (in_combine_l _ _ _ _ He))|]. exact (guessed_signs _ _ s Hg (in_combine_r _ _ _ _ He)).
Qed.
Lemma tsvm_run_small w0 k m : small_weights (w0, 0) -> tsvm_run d lr l2 bs epochs balance C_l Cmax lab unl w0 k m -> small_weights m.
Proof using All.
  intros H0 (m0 & HT & HR). assert (S0 : small_weights m0) by (eapply trained_small; [exact HCl|exact Hlab|exact H0|exact HT]).
  destruct HR as [[_ ->]|[_ HI]]; [exact S0|]. eapply improved_small; [exact HK|exact S0|exact HI].
Qed.
End Bound.
