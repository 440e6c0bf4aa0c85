From Coq Require Import List ZArith Lia Bool QArith Permutation Sorted Lqa ZifyBool ZifyNat.
From Verif Require Import Prelude ListFacts QFacts InductModel InductSpec InductProofs.
Import ListNotations.
Open Scope Z_scope.

(* ----- rounds ----- *)
Lemma combine_fst {A B} (a : list A) (b : list B) : length a = length b -> map fst (combine a b) = a.
Proof. revert b. induction a; intros [|y b] H; cbn in *; try reflexivity; try lia. f_equal. apply IHa. lia. Qed.
Lemma combine_snd {A B} (a : list A) (b : list B) : length a = length b -> map snd (combine a b) = b.
Proof. revert b. induction a; intros [|y b] H; cbn in *; try reflexivity; try lia. f_equal. apply IHa. lia. Qed.

Lemma firstn_app_le {A} k (a b : list A) : (k <= length a)%nat -> firstn k (a ++ b) = firstn k a.
Proof.
  intros H. rewrite firstn_app. replace (k - length a)%nat with 0%nat by lia. rewrite firstn_O. apply app_nil_r.
Qed.

Section Rounds.
Context {X : Type}.
Variable d : X.
Variables (Xl0 : list X) (yl0 : list Z) (Xu0 : list X).

Notation ts := (training_set d Xl0 yl0 Xu0).

Lemma training_set_prefix bs bs' k : (k <= length bs)%nat -> ts (bs ++ bs') k = ts bs k.
Proof. intros H. unfold training_set. rewrite firstn_app_le by exact H. reflexivity. Qed.

Lemma pool_positions_prefix bs bs' k : (k <= length bs)%nat ->
  pool_positions Xu0 (bs ++ bs') k = pool_positions Xu0 bs k.
Proof. intros H. unfold pool_positions. rewrite firstn_app_le by exact H. reflexivity. Qed.

Lemma pool_after_prefix bs bs' k : (k <= length bs)%nat ->
  pool_after d Xu0 (bs ++ bs') k = pool_after d Xu0 bs k.
Proof. intros H. unfold pool_after. rewrite pool_positions_prefix by exact H. reflexivity. Qed.

Definition inv (bs : list batch) (done : list (list X * list Z)) (Xl : list X) (yl : list Z) (Xu : list X) : Prop :=
  (Xl, yl) = ts bs (length bs) /\ Xu = pool_after d Xu0 bs (length bs) /\
  NoDup (taken_rows bs) /\ (forall i, In i (taken_rows bs) -> (i < length Xu0)%nat) /\
  done = map (ts bs) (seq 0 (length bs)).

Lemma inv_init : inv [] [] Xl0 yl0 Xu0.
Proof.
  unfold inv, training_set, pool_after, pool_positions. cbn. rewrite !app_nil_r. repeat split.
  - change (taken_rows []) with (@nil nat). symmetry. apply at_positions_all.
  - constructor.
  - intros i [].
Qed.

Lemma inv_done_length bs done Xl yl Xu : inv bs done Xl yl Xu -> length done = length bs.
Proof. intros (_ & _ & _ & _ & ->). now rewrite map_length, seq_length. Qed.

Lemma nth_ts_seq bs n k : (k < n)%nat -> nth k (map (ts bs) (seq 0 n)) ([], []) = ts bs k.
Proof.
  intros H. rewrite (nth_indep _ ([], []) (ts bs 0%nat)) by (rewrite map_length, seq_length; exact H).
  rewrite (map_nth (ts bs)), seq_nth by exact H. reflexivity.
Qed.

Lemma inv_stop0 bs done Xl yl Xu mi : inv bs done Xl yl Xu -> (length bs <= mi)%nat ->
  moves_rows_once d mi Xl0 yl0 Xu0 bs (done ++ [(Xl, yl)]) Xu.
Proof.
  intros I L. pose proof (inv_done_length _ _ _ _ _ I) as Ld. destruct I as (E & EX & ND & R & Ed).
  split; [exact ND|]. split; [exact R|]. split; [exact EX|]. split; [exact L|].
  split; [rewrite app_length; cbn; lia|].
  intros k Hk. rewrite app_length in Hk. cbn in Hk.
  destruct (Nat.eq_dec k (length bs)) as [->|Hn].
  - rewrite app_nth2, Ld, Nat.sub_diag by lia. cbn [nth]. rewrite Nat.min_id. exact E.
  - rewrite app_nth1 by lia. rewrite Ed, nth_ts_seq, Nat.min_l by lia. reflexivity.
Qed.

Lemma inv_stop1 bs done Xl yl Xu mi : inv bs done Xl yl Xu -> (length bs < mi)%nat ->
  moves_rows_once d mi Xl0 yl0 Xu0 bs ((done ++ [(Xl, yl)]) ++ [(Xl, yl)]) Xu.
Proof.
  intros I L. pose proof (inv_done_length _ _ _ _ _ I) as Ld.
  destruct (inv_stop0 _ _ _ _ _ mi I (Nat.lt_le_incl _ _ L)) as (A & B & C & D & E & F).
  split; [exact A|]. split; [exact B|]. split; [exact C|]. split; [exact D|].
  rewrite app_length in *. cbn [length] in *. split; [rewrite app_length; cbn; lia|].
  intros k Hk. rewrite app_length in Hk. cbn in Hk.
  destruct (Nat.eq_dec k (S (length bs))) as [->|Hn].
  - rewrite app_nth2, app_length by (rewrite app_length; cbn; lia). cbn [length].
    replace (S (length bs) - (length done + 1))%nat with 0%nat by lia. cbn [nth].
    rewrite Nat.min_r by lia. apply I.
  - rewrite app_nth1 by (rewrite app_length; cbn; lia). apply F. lia.
Qed.

Lemma pool_length bs done Xl yl Xu : inv bs done Xl yl Xu -> length Xu = length (pool_positions Xu0 bs (length bs)).
Proof. intros (_ & -> & _). apply at_positions_length. Qed.

Lemma taken_rows_app a b : taken_rows (a ++ b) = taken_rows a ++ taken_rows b.
Proof. unfold taken_rows. rewrite concat_app, map_app. reflexivity. Qed.

Lemma inv_step bs done Xl yl Xu sel labs : inv bs done Xl yl Xu ->
  NoDup sel -> (forall p, In p sel -> (p < length Xu)%nat) -> length labs = length sel ->
  inv (bs ++ [combine (rows 0%nat (pool_positions Xu0 bs (length bs)) sel) labs]) (done ++ [(Xl, yl)])
      (Xl ++ rows d Xu sel) (yl ++ labs) (drop_rows d Xu sel) /\
  rows d Xu sel = at_positions d Xu0 (rows 0%nat (pool_positions Xu0 bs (length bs)) sel).
Proof.
  intros I ND R L. pose proof (pool_length _ _ _ _ _ I) as PL.
  destruct I as (E & EX & N & RR & Ed).
  set (b := combine (rows 0%nat (pool_positions Xu0 bs (length bs)) sel) labs).
  assert (Lb : length (rows 0%nat (pool_positions Xu0 bs (length bs)) sel) = length labs)
    by (rewrite rows_length; lia).
  assert (Fb : map fst b = rows 0%nat (pool_positions Xu0 bs (length bs)) sel) by (apply combine_fst; exact Lb).
  assert (Sb : map snd b = labs) by (apply combine_snd; exact Lb).
  destruct (pool_step d Xu0 (taken_rows bs) sel) as (P1 & P2 & P3 & P4); auto.
  { intros p Hp. specialize (R p Hp). rewrite PL in R. unfold pool_positions in R. rewrite firstn_all in R. exact R. }
  assert (Ep : pool_positions Xu0 bs (length bs) = untaken (length Xu0) (taken_rows bs)).
  { unfold pool_positions. now rewrite firstn_all. }
  assert (Er : rows d Xu sel = at_positions d Xu0 (rows 0%nat (pool_positions Xu0 bs (length bs)) sel)).
  { rewrite EX. unfold pool_after. rewrite Ep. exact P1. }
  assert (Tb : taken_rows [b] = rows 0%nat (pool_positions Xu0 bs (length bs)) sel).
  { unfold taken_rows. cbn [concat]. rewrite app_nil_r. exact Fb. }
  split; [|exact Er]. unfold inv. rewrite app_length. cbn [length].
  replace (length bs + 1)%nat with (length (bs ++ [b])) by (rewrite app_length; reflexivity).
  unfold training_set, pool_after, pool_positions in *. rewrite firstn_all in *.
  repeat split.
  - pose proof (f_equal fst E) as E1. pose proof (f_equal snd E) as E2. cbn [fst snd] in E1, E2. f_equal.
    + rewrite E1, Er, taken_rows_app, Tb, <- app_assoc. unfold at_positions. rewrite map_app. reflexivity.
    + rewrite E2, concat_app, map_app. cbn [concat]. rewrite app_nil_r, Sb, <- app_assoc. reflexivity.
  - rewrite taken_rows_app, Tb, EX. exact P2.
  - rewrite taken_rows_app, Tb. apply NoDup_app_iff. split; [exact N|]. split; [exact P3|].
    intros i Hi Hi'. apply (proj2 (P4 i Hi')), Hi.
  - intros i. rewrite taken_rows_app, Tb, in_app_iff. intros [H|H]; [auto|]. now apply P4.
  - rewrite Ed, app_length. cbn [length]. rewrite seq_app, map_app. cbn [map seq plus]. f_equal.
    + apply map_ext_in. intros k Hk. apply in_seq in Hk. symmetry. rewrite firstn_app_le by lia. reflexivity.
    + f_equal. rewrite firstn_app_le, firstn_all by lia. exact E.
Qed.
End Rounds.

(* ----- pseudo-labelling ----- *)
Section PseudoLabel.
Context {X M : Type}.
Variable d : X.
Variable fit : nat -> list X -> list Z -> M.
Variable scores : M -> list X -> list (list Q).
Variable predict : M -> list X -> list Z.
Variable argsort : list Q -> list nat.
Variables (Xl0 : list X) (yl0 : list Z) (Xu0 : list X).
Hypothesis scores_length : forall m Z, length (scores m Z) = length Z.
Hypothesis predict_length : forall m Z, length (predict m Z) = length Z.
Hypothesis sorts : sorts_positions argsort.

Lemma model_at_prefix bs bs' k : (k <= length bs)%nat ->
  model_at d fit Xl0 yl0 Xu0 (bs ++ bs') k = model_at d fit Xl0 yl0 Xu0 bs k.
Proof. intros H. unfold model_at. rewrite training_set_prefix by exact H. reflexivity. Qed.

Lemma scores_at_prefix bs bs' k : (k <= length bs)%nat ->
  scores_at d fit scores Xl0 yl0 Xu0 (bs ++ bs') k = scores_at d fit scores Xl0 yl0 Xu0 bs k.
Proof. intros H. unfold scores_at. rewrite model_at_prefix, pool_after_prefix by exact H. reflexivity. Qed.

Lemma pl_round_prefix bs bs' thr mn mi k : (k < length bs)%nat ->
  pseudo_label_round d fit scores predict Xl0 yl0 Xu0 bs thr mn mi k ->
  pseudo_label_round d fit scores predict Xl0 yl0 Xu0 (bs ++ bs') thr mn mi k.
Proof.
  intros H. unfold pseudo_label_round. rewrite app_nth1 by exact H.
  rewrite model_at_prefix, scores_at_prefix, pool_positions_prefix by lia. tauto.
Qed.

Lemma pseudo_label_loop_spec thr max_new min_new (Hm : forall m, max_new = Some m -> 0 <= m) fuel :
  forall bs done Xl yl Xu r,
  inv d Xl0 yl0 Xu0 bs done Xl yl Xu ->
  (forall k, (k < length bs)%nat -> pseudo_label_round d fit scores predict Xl0 yl0 Xu0 bs thr max_new min_new k) ->
  pseudo_label_loop d fit scores predict argsort thr max_new min_new fuel done Xl yl Xu = Ok r ->
  exists bs', let all := bs ++ bs' in
    moves_rows_once d (length bs + fuel) Xl0 yl0 Xu0 all (calls r) (leftover r) /\
    (forall k, (k < length all)%nat -> pseudo_label_round d fit scores predict Xl0 yl0 Xu0 all thr max_new min_new k) /\
    pseudo_label_stop d fit scores Xl0 yl0 Xu0 all (length bs + fuel) thr max_new min_new.
Proof.
  induction fuel as [|f IH]; intros bs done Xl yl Xu r I Hr H; cbn [pseudo_label_loop] in H.
  - injection H as <-. exists []. rewrite app_nil_r. cbn [calls leftover]. split; [|split; [exact Hr|]].
    + apply inv_stop0; [exact I|lia].
    + left. lia.
  - assert (Em : fit (length done) Xl yl = model_at d fit Xl0 yl0 Xu0 bs (length bs)).
    { rewrite (inv_done_length _ _ _ _ _ _ _ _ _ I). unfold model_at. destruct I as (E & _). rewrite <- E. reflexivity. }
    pose proof (proj1 (proj2 I)) as EX.
    destruct Xu as [|x Xu'] eqn:EXu.
    { injection H as <-. exists []. rewrite app_nil_r. cbn [calls leftover]. split; [|split; [exact Hr|]].
      - apply inv_stop1; [exact I|lia].
      - right. left. symmetry. exact EX. }
    rewrite <- EXu in *.
    destruct (select_confident argsort (Some thr) max_new (scores (fit (length done) Xl yl) Xu)) as [idx|] eqn:Es;
      cbn [bind] in H; [|discriminate].
    pose proof (select_confident_spec _ _ _ _ _ sorts Hm Es) as Sel.
    assert (Esc : scores (fit (length done) Xl yl) Xu = scores_at d fit scores Xl0 yl0 Xu0 bs (length bs)).
    { unfold scores_at. rewrite Em, EX at 1. reflexivity. }
    rewrite Esc in Sel.
    destruct (lenZ idx <? min_new) eqn:El.
    + injection H as <-. exists []. rewrite app_nil_r. cbn [calls leftover]. split; [|split; [exact Hr|]].
      * apply inv_stop1; [exact I|lia].
      * right. right. exists idx. split; [exact Sel|]. unfold lenZ in El. lia.
    + destruct Sel as (S1 & S2 & S3 & S4).
      assert (Rg : forall p, In p idx -> (p < length Xu)%nat).
      { intros p Hp. apply S2 in Hp. rewrite <- Esc, scores_length in Hp. tauto. }
      destruct (inv_step d Xl0 yl0 Xu0 bs done Xl yl Xu idx (predict (fit (length done) Xl yl) (rows d Xu idx)) I S1 Rg)
        as [I' Er].
      { rewrite predict_length, rows_length. reflexivity. }
      set (b := combine _ _) in I'.
      assert (Lb : length (rows 0%nat (pool_positions Xu0 bs (length bs)) idx) =
                   length (predict (fit (length done) Xl yl) (rows d Xu idx)))
        by now rewrite predict_length, !rows_length.
      assert (Fb : map fst b = rows 0%nat (pool_positions Xu0 bs (length bs)) idx) by (apply combine_fst; exact Lb).
      assert (Sb : map snd b = predict (fit (length done) Xl yl) (rows d Xu idx)) by (apply combine_snd; exact Lb).
      assert (Hr' : forall k, (k < length (bs ++ [b]))%nat ->
        pseudo_label_round d fit scores predict Xl0 yl0 Xu0 (bs ++ [b]) thr max_new min_new k).
      { intros k Hk. rewrite app_length in Hk. cbn in Hk.
        destruct (Nat.eq_dec k (length bs)) as [->|Hn]; [|apply pl_round_prefix; [lia|apply Hr; lia]].
        unfold pseudo_label_round. rewrite app_nth2, Nat.sub_diag by lia. cbn [nth].
        rewrite model_at_prefix, scores_at_prefix, pool_positions_prefix by lia.
        split; [|split].
        - rewrite <- (map_length fst b), Fb, rows_length. unfold lenZ in El. lia.
        - rewrite Sb, Fb, <- Er, Em. reflexivity.
        - exists idx. split; [split; auto|exact Fb]. }
      destruct (IH _ _ _ _ _ _ I' Hr' H) as (bs' & A & B & C).
      exists (b :: bs'). rewrite <- app_assoc in A, B, C. cbn [app] in A, B, C.
      rewrite app_length in A, C. cbn [length] in A, C.
      replace (length bs + 1 + f)%nat with (length bs + S f)%nat in A, C by lia.
      split; [exact A|]. split; [exact B|exact C].
Qed.

Lemma pseudo_label_fit_spec max_iter thr max_new min_new r :
  (forall m, max_new = Some m -> 0 <= m) ->
  pseudo_label_fit d fit scores predict argsort max_iter thr max_new min_new Xl0 yl0 Xu0 = Ok r ->
  exists bs,
    moves_rows_once d (Z.to_nat max_iter) Xl0 yl0 Xu0 bs (calls r) (leftover r) /\
    (forall k, (k < length bs)%nat -> pseudo_label_round d fit scores predict Xl0 yl0 Xu0 bs thr max_new min_new k) /\
    pseudo_label_stop d fit scores Xl0 yl0 Xu0 bs (Z.to_nat max_iter) thr max_new min_new.
Proof.
  intros Hm H. unfold pseudo_label_fit in H.
  destruct Xu0 as [|x Xu'] eqn:EXu.
  - injection H as <-. exists []. cbn [calls leftover]. split; [|split].
    + rewrite <- EXu. pose proof (inv_stop0 d Xl0 yl0 Xu0 [] [] Xl0 yl0 Xu0 (Z.to_nat max_iter) (inv_init d Xl0 yl0 Xu0)) as S.
      rewrite EXu in *. apply S. cbn. lia.
    + intros k Hk. cbn in Hk. lia.
    + right. left. unfold pool_after, pool_positions, untaken. reflexivity.
  - rewrite <- EXu in *. destruct Xl0 as [|x0 Xl'] eqn:EXl; [discriminate|]. rewrite <- EXl in *.
    destruct (pseudo_label_loop_spec thr max_new min_new Hm (Z.to_nat max_iter) [] [] Xl0 yl0 Xu0 r) as (bs & A & B & C); auto.
    + apply inv_init.
    + intros k Hk. cbn in Hk. lia.
    + exists bs. auto.
Qed.
End PseudoLabel.
