From Coq Require Import List ZArith Lia Bool QArith Permutation Sorted Lqa ZifyBool ZifyNat.
From Verif Require Import Prelude ListFacts QFacts InductModel InductSpec InductProofs InductLoopProofs InductSelfProofs.
Import ListNotations.
Open Scope Z_scope.

Lemma untaken_ext n a b : (forall i, In i a <-> In i b) -> untaken n a = untaken n b.
Proof.
  intros H. unfold untaken. apply filter_ext. intros i.
  destruct (in_dec Nat.eq_dec i a) as [A|A], (in_dec Nat.eq_dec i b) as [B|B]; auto; exfalso; apply H in B || (apply B, H, A); tauto.
Qed.

Lemma map_firstn {A B} (f : A -> B) k l : firstn k (map f l) = map f (firstn k l).
Proof. revert l. induction k; intros [|a l]; cbn; congruence. Qed.

Section CoTrainingProofs.
Context {X1 X2 M1 M2 : Type}.
Variables (d1 : X1) (d2 : X2).
Variable fit1 : nat -> list X1 -> list Z -> M1.
Variable fit2 : nat -> list X2 -> list Z -> M2.
Variable scores1 : M1 -> list X1 -> list (list Q).
Variable scores2 : M2 -> list X2 -> list (list Q).
Variable predict1 : M1 -> list X1 -> list Z.
Variable predict2 : M2 -> list X2 -> list Z.
Variable argsort : list Q -> list nat.
Variables (X1l : list X1) (X2l : list X2) (yl : list Z) (X1u : list X1) (X2u : list X2).
Hypothesis same_rows : length X1u = length X2u.
Hypothesis len1 : forall m rs, length (scores1 m rs) = length rs.
Hypothesis len2 : forall m rs, length (scores2 m rs) = length rs.
Hypothesis rect1 : forall m rs, rectangular (scores1 m rs).
Hypothesis rect2 : forall m rs, rectangular (scores2 m rs).
Hypothesis plen1 : forall m rs, length (predict1 m rs) = length rs.
Hypothesis plen2 : forall m rs, length (predict2 m rs) = length rs.
Hypothesis sorts : sorts_positions argsort.
Variables (K : Z) (thr : option Q).
Hypothesis K_nonneg : 0 <= K.

Notation T1 := (co_training1 d1 X1l yl X1u).
Notation T2 := (co_training2 d2 X2l yl X2u).
Notation pool := (co_pool X1u).
Notation rnd := (co_round d1 d2 fit1 fit2 scores1 scores2 predict1 predict2 X1l X2l yl X1u X2u).

Definition round_rows (r : batch * batch) : list nat := map fst (fst r) ++ map fst (snd r).

Definition co_inv (rs : co_rounds) (done1 : list (list X1 * list Z)) (done2 : list (list X2 * list Z))
    (s : @co_state X1 X2) : Prop :=
  (co_X1l s, co_y1 s) = T1 rs (length rs) /\ (co_X2l s, co_y2 s) = T2 rs (length rs) /\
  co_X1u s = at_positions d1 X1u (pool rs (length rs)) /\ co_X2u s = at_positions d2 X2u (pool rs (length rs)) /\
  NoDup (taken_rows (map fst rs)) /\ NoDup (taken_rows (map snd rs)) /\
  (forall i, In i (co_taken rs) -> (i < length X1u)%nat) /\
  (forall j k, (j < k < length rs)%nat -> forall i, In i (round_rows (nth j rs ([], []))) -> ~ In i (round_rows (nth k rs ([], [])))) /\
  done1 = map (T1 rs) (seq 0 (length rs)) /\ done2 = map (T2 rs) (seq 0 (length rs)).

Lemma T1_prefix rs rs' k : (k <= length rs)%nat -> T1 (rs ++ rs') k = T1 rs k.
Proof. intros H. unfold co_training1. rewrite map_app. apply training_set_prefix. now rewrite map_length. Qed.
Lemma T2_prefix rs rs' k : (k <= length rs)%nat -> T2 (rs ++ rs') k = T2 rs k.
Proof. intros H. unfold co_training2. rewrite map_app. apply training_set_prefix. now rewrite map_length. Qed.
Lemma pool_prefix rs rs' k : (k <= length rs)%nat -> pool (rs ++ rs') k = pool rs k.
Proof. intros H. unfold co_pool. now rewrite firstn_app_le. Qed.

Lemma rnd_prefix rs rs' n k : (k < length rs)%nat -> rnd rs n thr k -> rnd (rs ++ rs') n thr k.
Proof.
  intros H. unfold co_round, co_model1, co_model2. rewrite app_nth1 by exact H.
  rewrite T1_prefix, T2_prefix, pool_prefix by lia. tauto.
Qed.

Lemma rectangular_columns sc : rectangular sc -> forall r, In r sc -> length r = n_columns sc.
Proof.
  intros R r H. destruct sc as [|r0 sc]; [destruct H|]. cbn. apply R; [exact H|now left].
Qed.

Lemma In_taken_rows bs i : In i (taken_rows bs) <-> exists k, (k < length bs)%nat /\ In i (map fst (nth k bs [])).
Proof.
  unfold taken_rows. rewrite in_map_iff. split.
  - intros ([a l] & E & H). cbn in E. subst a. apply in_concat in H. destruct H as (b & Hb & Hi).
    apply (In_nth _ _ []) in Hb. destruct Hb as (k & Lk & <-). exists k. split; [exact Lk|].
    apply in_map_iff. exists (i, l). auto.
  - intros (k & Lk & H). apply in_map_iff in H. destruct H as (p & E & H). exists p. split; [exact E|].
    apply in_concat. exists (nth k bs []). split; [now apply nth_In|exact H].
Qed.

Lemma taken_one b : taken_rows [b] = map fst b.
Proof. unfold taken_rows. cbn. now rewrite app_nil_r. Qed.

Lemma co_taken_app rs r i : In i (co_taken (rs ++ [r])) <-> In i (co_taken rs) \/ In i (round_rows r).
Proof.
  unfold co_taken, round_rows. rewrite !map_app, !taken_rows_app. cbn [map]. rewrite !taken_one, !in_app_iff. tauto.
Qed.

Lemma In_co_taken rs i : In i (co_taken rs) <-> exists k, (k < length rs)%nat /\ In i (round_rows (nth k rs ([], []))).
Proof.
  unfold co_taken. rewrite in_app_iff, !In_taken_rows, !map_length. unfold round_rows.
  assert (F : forall k, nth k (map fst rs) [] = fst (nth k rs ([], []))) by (intros k; apply (map_nth fst rs ([], []) k)).
  assert (S : forall k, nth k (map snd rs) [] = snd (nth k rs ([], []))) by (intros k; apply (map_nth snd rs ([], []) k)).
  split.
  - intros [(k & L & H)|(k & L & H)]; exists k; split; auto; apply in_or_app; rewrite ?F, ?S in H; auto.
  - intros (k & L & H). apply in_app_or in H. rewrite <- F, <- S in H. destruct H; [left|right]; eauto.
Qed.

Lemma co_inv_init : co_inv [] [] []
  {| co_X1l := X1l; co_y1 := yl; co_X2l := X2l; co_y2 := yl; co_X1u := X1u; co_X2u := X2u |}.
Proof using same_rows.
  unfold co_inv, co_training1, co_training2, training_set, co_pool, co_taken. cbn. rewrite !app_nil_r.
  repeat split.
  - change (taken_rows []) with (@nil nat). cbn [app]. symmetry. apply at_positions_all.
  - change (taken_rows []) with (@nil nat). cbn [app]. symmetry. rewrite same_rows. apply at_positions_all.
  - constructor.
  - constructor.
  - intros i [].
  - intros j k H. exfalso. clear - H. lia.
Qed.

Lemma co_done_length rs a b s : co_inv rs a b s -> length a = length rs /\ length b = length rs.
Proof. intros (_ & _ & _ & _ & _ & _ & _ & _ & -> & ->). now rewrite !map_length, !seq_length. Qed.

Lemma nth_map_seq {A} (f : nat -> A) n k e : (k < n)%nat -> nth k (map f (seq 0 n)) e = f k.
Proof.
  intros H. rewrite (nth_indep _ e (f 0%nat)) by (rewrite map_length, seq_length; exact H).
  rewrite (map_nth f), seq_nth by exact H. reflexivity.
Qed.

Lemma nth_stop {A} (f : nat -> A) n x e k extra : f n = x -> (k < n + length (x :: extra))%nat ->
  (forall y, In y extra -> y = x) ->
  nth k (map f (seq 0 n) ++ x :: extra) e = f (Nat.min k n).
Proof.
  intros E Hk Hx. destruct (le_lt_dec n k) as [H|H].
  - rewrite app_nth2 by (rewrite map_length, seq_length; exact H). rewrite map_length, seq_length, Nat.min_r, E by exact H.
    assert (In (nth (k - n) (x :: extra) e) (x :: extra)) by (apply nth_In; lia).
    destruct H0 as [<-|H0]; [reflexivity|auto].
  - rewrite app_nth1 by (rewrite map_length, seq_length; exact H). rewrite nth_map_seq, Nat.min_l by lia. reflexivity.
Qed.

Lemma co_stop_moves rs a b s mi e1 e2 : co_inv rs a b s ->
  (forall y, In y e1 -> y = (co_X1l s, co_y1 s)) -> (forall y, In y e2 -> y = (co_X2l s, co_y2 s)) ->
  length e1 = length e2 -> (length rs + length e1 <= mi)%nat ->
  co_moves d1 d2 X1l X2l yl X1u X2u rs mi (a ++ (co_X1l s, co_y1 s) :: e1) (b ++ (co_X2l s, co_y2 s) :: e2) (co_X1u s) (co_X2u s).
Proof.
  intros (A1 & A2 & A3 & A4 & A5 & A6 & A7 & A8 & A9 & A10) H1 H2 He Hl. unfold co_moves.
  split; [exact A5|]. split; [exact A6|]. split; [exact A7|]. split; [exact A8|]. split; [exact A3|]. split; [exact A4|].
  split; [lia|]. rewrite A9, A10, !app_length, !map_length, !seq_length. cbn [length]. split; [lia|]. split; [lia|].
  intros k Hk. split; apply nth_stop; auto; cbn [length]; lia.
Qed.

Lemma co_step rs a b s idx1 idx2 lab1 lab2 : co_inv rs a b s ->
  NoDup idx1 -> NoDup idx2 -> (forall p, In p (idx1 ++ idx2) -> (p < length (pool rs (length rs)))%nat) ->
  length lab1 = length idx1 -> length lab2 = length idx2 ->
  let ids := pool rs (length rs) in
  let r : batch * batch := (combine (rows 0%nat ids idx1) lab1, combine (rows 0%nat ids idx2) lab2) in
  co_inv (rs ++ [r]) (a ++ [(co_X1l s, co_y1 s)]) (b ++ [(co_X2l s, co_y2 s)])
    {| co_X2l := co_X2l s ++ rows d2 (co_X2u s) idx1; co_y2 := co_y2 s ++ lab1;
       co_X1l := co_X1l s ++ rows d1 (co_X1u s) idx2; co_y1 := co_y1 s ++ lab2;
       co_X1u := drop_rows d1 (co_X1u s) (idx1 ++ idx2);
       co_X2u := drop_rows d2 (co_X2u s) (idx1 ++ idx2) |}.
Proof.
  intros (A1 & A2 & A3 & A4 & A5 & A6 & A7 & A8 & A9 & A10) N1 N2 R L1 L2 ids r.
  assert (Eids : ids = untaken (length X1u) (co_taken rs)) by (unfold ids, co_pool; now rewrite firstn_all).
  assert (F1 : map fst (fst r : batch) = rows 0%nat ids idx1) by (cbn; apply combine_fst; rewrite rows_length; lia).
  assert (S1 : map snd (fst r) = lab1) by (cbn; apply combine_snd; rewrite rows_length; lia).
  assert (F2 : map fst (snd r) = rows 0%nat ids idx2) by (cbn; apply combine_fst; rewrite rows_length; lia).
  assert (S2 : map snd (snd r) = lab2) by (cbn; apply combine_snd; rewrite rows_length; lia).
  clearbody r. fold ids in R. 
  assert (R1 : forall p, In p idx1 -> (p < length ids)%nat) by (intros p Hp; apply R, in_or_app; now left).
  assert (R2 : forall p, In p idx2 -> (p < length ids)%nat) by (intros p Hp; apply R, in_or_app; now right).
  assert (P1 : NoDup (rows 0%nat ids idx1) /\ forall i, In i (rows 0%nat ids idx1) -> (i < length X1u)%nat /\ ~ In i (co_taken rs)).
  { rewrite Eids in *. now apply pool_rows_NoDup. }
  assert (P2 : NoDup (rows 0%nat ids idx2) /\ forall i, In i (rows 0%nat ids idx2) -> (i < length X1u)%nat /\ ~ In i (co_taken rs)).
  { rewrite Eids in *. now apply pool_rows_NoDup. }
  destruct P1 as [P1 P1']. destruct P2 as [P2 P2'].
  assert (Rr : forall i, In i (round_rows r) -> (i < length X1u)%nat /\ ~ In i (co_taken rs)).
  { intros i Hi. unfold round_rows in Hi. rewrite ?F1, ?F2 in Hi. apply in_app_or in Hi. destruct Hi; auto. }
  assert (Lr : length (rs ++ [r]) = S (length rs)) by (rewrite app_length; cbn; lia).
  unfold co_inv. cbn [co_X1l co_X2l co_y1 co_y2 co_X1u co_X2u].
  assert (Fl : forall n : nat, n = length rs -> True) by auto. clear Fl.
  split; [|split; [|split; [|split; [|split; [|split; [|split; [|split; [|split]]]]]]]].
  - unfold co_training1, training_set in *. rewrite map_app, firstn_all2 by (rewrite app_length, map_length, Lr; cbn; lia).
    rewrite firstn_all2 in A1 by (rewrite map_length; lia).
    rewrite taken_rows_app, concat_app, map_app. cbn [map concat]. rewrite app_nil_r, taken_one, F2, S2.
    pose proof (f_equal fst A1) as B1. pose proof (f_equal snd A1) as B2. cbn [fst snd] in B1, B2.
    rewrite B1, B2, A3, rows_of_pool by exact R2. unfold at_positions. rewrite map_app, <- !app_assoc. reflexivity.
  - unfold co_training2, training_set in *. rewrite map_app, firstn_all2 by (rewrite app_length, map_length, Lr; cbn; lia).
    rewrite firstn_all2 in A2 by (rewrite map_length; lia).
    rewrite taken_rows_app, concat_app, map_app. cbn [map concat]. rewrite app_nil_r, taken_one, F1, S1.
    pose proof (f_equal fst A2) as B1. pose proof (f_equal snd A2) as B2. cbn [fst snd] in B1, B2.
    rewrite B1, B2, A4, rows_of_pool by exact R1. unfold at_positions. rewrite map_app, <- !app_assoc. reflexivity.
  - rewrite A3. fold ids. rewrite Eids in *. rewrite pool_drop by exact R. f_equal. unfold co_pool. rewrite Lr, <- Lr, firstn_all.
    apply untaken_ext. intros i. rewrite co_taken_app, in_app_iff. unfold round_rows, rows in *. rewrite F1, F2, map_app. tauto.
  - rewrite A4. fold ids. rewrite Eids in *. rewrite pool_drop by exact R. f_equal. unfold co_pool. rewrite Lr, <- Lr, firstn_all.
    apply untaken_ext. intros i. rewrite co_taken_app, in_app_iff. unfold round_rows, rows in *. rewrite F1, F2, map_app. tauto.
  - rewrite map_app, taken_rows_app. cbn [map]. rewrite taken_one, F1. apply NoDup_app_iff. split; [exact A5|]. split; [exact P1|].
    intros i Hi Hi'. apply (proj2 (P1' i Hi')). unfold co_taken. apply in_or_app. now left.
  - rewrite map_app, taken_rows_app. cbn [map]. rewrite taken_one, F2. apply NoDup_app_iff. split; [exact A6|]. split; [exact P2|].
    intros i Hi Hi'. apply (proj2 (P2' i Hi')). unfold co_taken. apply in_or_app. now right.
  - intros i Hi. apply co_taken_app in Hi. destruct Hi as [Hi|Hi]; [auto|]. now apply Rr.
  - intros j k Hjk i Hj Hk. rewrite Lr in Hjk.
    destruct (Nat.eq_dec k (length rs)) as [->|Hn].
    + rewrite (app_nth2 rs [r]), Nat.sub_diag in Hk by lia. cbn [nth] in Hk. rewrite app_nth1 in Hj by lia.
      apply (proj2 (Rr i Hk)). apply In_co_taken. exists j. split; [lia|exact Hj].
    + rewrite app_nth1 in Hj by lia. rewrite app_nth1 in Hk by lia. apply (A8 j k ltac:(lia) i Hj Hk).
  - rewrite A9, Lr. replace (S (length rs)) with (length rs + 1)%nat by lia. rewrite seq_app, map_app. cbn [map seq plus]. f_equal.
    + apply map_ext_in. intros k Hk. apply in_seq in Hk. symmetry. apply T1_prefix. lia.
    + f_equal. rewrite T1_prefix by lia. exact A1.
  - rewrite A10, Lr. replace (S (length rs)) with (length rs + 1)%nat by lia. rewrite seq_app, map_app. cbn [map seq plus]. f_equal.
    + apply map_ext_in. intros k Hk. apply in_seq in Hk. symmetry. apply T2_prefix. lia.
    + f_equal. rewrite T2_prefix by lia. exact A2.
Qed.

Lemma co_loop_spec fuel : forall rs a b s,
  co_inv rs a b s -> (forall k, (k < length rs)%nat -> rnd rs (Z.to_nat K) thr k) ->
  let r := co_loop d1 d2 fit1 fit2 scores1 scores2 predict1 predict2 argsort K thr fuel a b s in
  exists rs', let all := rs ++ rs' in
    co_moves d1 d2 X1l X2l yl X1u X2u all (length rs + fuel) (co_calls1 r) (co_calls2 r) (co_left1 r) (co_left2 r) /\
    (forall k, (k < length all)%nat -> rnd all (Z.to_nat K) thr k) /\
    co_stop d1 d2 fit1 fit2 scores1 scores2 X1l X2l yl X1u X2u all (length rs + fuel) (Z.to_nat K) thr.
Proof.
  induction fuel as [|f IH]; intros rs a b s I Hr; cbn [co_loop].
  - exists []. rewrite app_nil_r. cbn [co_calls1 co_calls2 co_left1 co_left2]. split; [|split; [exact Hr|]].
    + apply co_stop_moves; auto; cbn; try tauto; try lia.
    + left. lia.
  - destruct (co_done_length _ _ _ _ I) as [La Lb].
    pose proof I as (A1 & A2 & A3 & A4 & _).
    assert (Stop : co_moves d1 d2 X1l X2l yl X1u X2u rs (length rs + S f)
      ((a ++ [(co_X1l s, co_y1 s)]) ++ [(co_X1l s, co_y1 s)]) ((b ++ [(co_X2l s, co_y2 s)]) ++ [(co_X2l s, co_y2 s)])
      (co_X1u s) (co_X2u s)).
    { rewrite <- !app_assoc. cbn [app]. apply co_stop_moves; auto; cbn [length]; try lia; intros y [<-|[]]; reflexivity. }
    assert (E1 : fit1 (length a) (co_X1l s) (co_y1 s) = co_model1 d1 fit1 X1l yl X1u rs (length rs)).
    { rewrite La. unfold co_model1. rewrite <- A1. reflexivity. }
    assert (E2 : fit2 (length b) (co_X2l s) (co_y2 s) = co_model2 d2 fit2 X2l yl X2u rs (length rs)).
    { rewrite Lb. unfold co_model2. rewrite <- A2. reflexivity. }
    destruct (co_X1u s) as [|x0 xs] eqn:Eu.
    { exists []. rewrite app_nil_r. cbn [co_calls1 co_calls2 co_left1 co_left2]. split; [exact Stop|]. split; [exact Hr|].
      right. left. symmetry in A3. apply map_eq_nil in A3. exact A3. }
    rewrite <- Eu in *. clear x0 xs Eu.
    set (m1 := fit1 (length a) (co_X1l s) (co_y1 s)) in *. set (m2 := fit2 (length b) (co_X2l s) (co_y2 s)) in *.
    set (idx1 := select_top_per_class argsort K thr (scores1 m1 (co_X1u s))).
    set (idx2 := select_top_per_class argsort K thr (scores2 m2 (co_X2u s))).
    pose proof (select_top_per_class_spec argsort K thr _ sorts K_nonneg (rectangular_columns _ (rect1 m1 (co_X1u s)))) as S1.
    pose proof (select_top_per_class_spec argsort K thr _ sorts K_nonneg (rectangular_columns _ (rect2 m2 (co_X2u s)))) as S2.
    fold idx1 in S1. fold idx2 in S2. clearbody idx1 idx2.
    assert (Sc1 : scores1 m1 (co_X1u s) = scores1 (co_model1 d1 fit1 X1l yl X1u rs (length rs)) (at_positions d1 X1u (pool rs (length rs)))).
    { rewrite E1, A3. reflexivity. }
    assert (Sc2 : scores2 m2 (co_X2u s) = scores2 (co_model2 d2 fit2 X2l yl X2u rs (length rs)) (at_positions d2 X2u (pool rs (length rs)))).
    { rewrite E2, A4. reflexivity. }
    assert (N1 : NoDup idx1) by (apply StronglySorted_lt_NoDup, S1).
    assert (N2 : NoDup idx2) by (apply StronglySorted_lt_NoDup, S2).
    assert (R : forall p, In p (idx1 ++ idx2) -> (p < length (pool rs (length rs)))%nat).
    { intros p Hp. apply in_app_or in Hp. destruct Hp as [Hp|Hp].
      - apply S1 in Hp. destruct Hp as [Hp _]. rewrite len1, A3, at_positions_length in Hp. exact Hp.
      - apply S2 in Hp. destruct Hp as [Hp _]. rewrite len2, A4, at_positions_length in Hp. exact Hp. }
    rewrite Sc1 in S1. rewrite Sc2 in S2.
    set (lab1 := match idx1 with [] => [] | _ => predict1 m1 (rows d1 (co_X1u s) idx1) end).
    set (lab2 := match idx2 with [] => [] | _ => predict2 m2 (rows d2 (co_X2u s) idx2) end).
    assert (B1 : lab1 = predict1 m1 (rows d1 (co_X1u s) idx1)).
    { unfold lab1. destruct idx1; [|reflexivity]. symmetry. apply length_zero_iff_nil. rewrite plen1. reflexivity. }
    assert (B2 : lab2 = predict2 m2 (rows d2 (co_X2u s) idx2)).
    { unfold lab2. destruct idx2; [|reflexivity]. symmetry. apply length_zero_iff_nil. rewrite plen2. reflexivity. }
    assert (L1 : length lab1 = length idx1) by (rewrite B1, plen1, rows_length; reflexivity).
    assert (L2 : length lab2 = length idx2) by (rewrite B2, plen2, rows_length; reflexivity).
    pose proof (co_step rs a b s idx1 idx2 lab1 lab2 I N1 N2 R L1 L2) as I'. cbv zeta in I'.
    set (ids := pool rs (length rs)) in *.
    pose (r := (combine (rows 0%nat ids idx1) lab1, combine (rows 0%nat ids idx2) lab2) : batch * batch). fold r in I'.
    set (s' := Build_co_state _ _ _ _ _ _) in I'.
    assert (F1 : map fst (fst r : batch) = rows 0%nat ids idx1) by (cbn; apply combine_fst; rewrite rows_length; lia).
    assert (Sn1 : map snd (fst r) = lab1) by (cbn; apply combine_snd; rewrite rows_length; lia).
    assert (F2 : map fst (snd r) = rows 0%nat ids idx2) by (cbn; apply combine_fst; rewrite rows_length; lia).
    assert (Sn2 : map snd (snd r) = lab2) by (cbn; apply combine_snd; rewrite rows_length; lia).
    assert (Go : idx1 <> [] \/ idx2 <> [] ->
      exists rs', let all := rs ++ rs' in
      let rr := co_loop d1 d2 fit1 fit2 scores1 scores2 predict1 predict2 argsort K thr f (a ++ [(co_X1l s, co_y1 s)]) (b ++ [(co_X2l s, co_y2 s)]) s' in
      co_moves d1 d2 X1l X2l yl X1u X2u all (length rs + S f) (co_calls1 rr) (co_calls2 rr) (co_left1 rr) (co_left2 rr) /\
      (forall k, (k < length all)%nat -> rnd all (Z.to_nat K) thr k) /\
      co_stop d1 d2 fit1 fit2 scores1 scores2 X1l X2l yl X1u X2u all (length rs + S f) (Z.to_nat K) thr).
    { intros NE. destruct (IH (rs ++ [r]) _ _ _ I') as (rs' & C1 & C2 & C3).
      - intros k Hk. rewrite app_length in Hk. cbn in Hk.
        destruct (Nat.eq_dec k (length rs)) as [->|Hn]; [|apply rnd_prefix; [lia|apply Hr; lia]].
        unfold co_round, co_model1, co_model2. rewrite app_nth2, Nat.sub_diag by lia. cbn [nth].
        rewrite T1_prefix, T2_prefix, pool_prefix by lia. fold ids.
        fold (co_model1 d1 fit1 X1l yl X1u rs (length rs)). fold (co_model2 d2 fit2 X2l yl X2u rs (length rs)).
        split; [|split; [|split; [|split]]].
        + destruct NE as [NE|NE]; [left|right]; intros E.
          * apply NE. pose proof (eq_trans (eq_sym F1) (f_equal (map fst) E)) as E3. apply map_eq_nil in E3. exact E3.
          * apply NE. pose proof (eq_trans (eq_sym F2) (f_equal (map fst) E)) as E3. apply map_eq_nil in E3. exact E3.
        + exists idx1. split; [exact S1|exact F1].
        + rewrite Sn1, F1, B1, <- E1, A3, rows_of_pool; [reflexivity|]. intros p Hp. apply R, in_or_app. now left.
        + exists idx2. split; [exact S2|exact F2].
        + rewrite Sn2, F2, B2, <- E2, A4, rows_of_pool; [reflexivity|]. intros p Hp. apply R, in_or_app. now right.
      - exists (r :: rs'). rewrite <- app_assoc in C1, C2, C3. cbn [app] in C1, C2, C3.
        rewrite app_length in C1, C3. cbn [length] in C1, C3.
        replace (length rs + 1 + f)%nat with (length rs + S f)%nat in C1, C3 by lia.
        split; [exact C1|]. split; [exact C2|exact C3]. }
    destruct idx1 as [|i1 idx1']; [destruct idx2 as [|i2 idx2']|].
    + exists []. rewrite app_nil_r. cbn [co_calls1 co_calls2 co_left1 co_left2]. split; [exact Stop|]. split; [exact Hr|].
      right. right. split; [exact S1|exact S2].
    + apply Go. now right.
    + apply Go. now left.
Qed.
End CoTrainingProofs.
