From Coq Require Import List ZArith Lia Bool QArith Permutation Sorted Lqa ZifyBool ZifyNat.
From Verif Require Import Prelude ListFacts QFacts InductModel InductSpec InductProofs InductLoopProofs InductCoProofs EnsembleModel EnsembleSpec.
Import ListNotations.
Open Scope Z_scope.

Lemma top_score_spec r : r <> [] -> In (top_score r) r /\ forall x, In x r -> (x <= top_score r)%Q.
Proof.
  destruct r as [|x r]; [congruence|]. intros _. unfold top_score. cbn [row_max].
  apply (row_max_spec (x :: r)). reflexivity.
Qed.

Lemma reaches_top t r : r <> [] -> (above t (top_score r) = true <-> reaches t r).
Proof.
  intros H. destruct (top_score_spec r H) as [A B]. rewrite above_meets. symmetry. now apply reaches_max.
Qed.

Lemma confidence_top sc c i : confidences sc c -> (i < length sc)%nat -> nth i sc [] <> [] -> (c i == top_score (nth i sc []))%Q.
Proof.
  intros C L H. destruct (C i L) as [A B]. destruct (top_score_spec _ H) as [A' B']. apply Qle_antisym; auto.
Qed.

(* taking all, or the k largest *)
Lemma take_desc argsort (key : nat -> Q) idx m : sorts_positions argsort -> NoDup idx -> 0 <= m ->
  let sel := rows 0%nat idx (py_take m (rev (argsort (map key idx)))) in
  NoDup sel /\ incl sel idx /\ length sel = Nat.min (Z.to_nat m) (length idx) /\
  (forall i j, In i sel -> In j idx -> ~ In j sel -> (key j <= key i)%Q).
Proof.
  intros A N Hm sel.
  assert (L : length (rev (argsort (map key idx))) = length idx).
  { rewrite rev_length, (argsort_length _ _ A), map_length. reflexivity. }
  assert (E : py_take m (rev (argsort (map key idx))) = firstn (Nat.min (Z.to_nat m) (length idx)) (rev (argsort (map key idx)))).
  { rewrite py_take_nonneg by exact Hm. destruct (le_lt_dec (Z.to_nat m) (length idx)); [now rewrite Nat.min_l|].
    rewrite Nat.min_r by lia. rewrite !firstn_all2 by lia. reflexivity. }
  unfold sel. rewrite E.
  destruct (pick_eligible _ key idx (Nat.min (Z.to_nat m) (length idx)) (argsort_desc_picks _ A) N ltac:(lia)) as (P1 & P2 & P3 & P4).
  auto.
Qed.

Lemma tri_pick_spec argsort thr max_new sj sk taken :
  sorts_positions argsort -> (forall m, max_new = Some m -> 0 <= m) -> length sk = length sj ->
  (forall r, In r sj -> r <> []) -> (forall r, In r sk -> r <> []) ->
  tri_batch thr max_new sj sk taken (tri_pick argsort thr max_new sj sk taken).
Proof.
  intros A Hm L Nj Nk. unfold tri_pick.
  set (idx := filter (fun r => negb (memN r taken)) _).
  assert (I : forall r, In r idx <-> ~ In r taken /\ exists c, agree_on thr sj sk r c).
  { intros r. unfold idx. rewrite !filter_In, in_seq, negb_true_iff, andb_true_iff, Nat.eqb_eq. split.
    - intros ((((_ & Hr) & Ha) & H1 & H2) & Hn). cbn in Hr.
      assert (Kj : nth r sj [] <> []) by (apply Nj, nth_In, Hr).
      assert (Kk : nth r sk [] <> []) by (apply Nk, nth_In; lia).
      split; [intros Hi; apply memN_In in Hi; congruence|]. exists (argmax (nth r sj [])).
      split; [exact Hr|]. split; [now apply argmax_predicts|]. split; [rewrite Ha; now apply argmax_predicts|].
      split; [now apply reaches_top|now apply reaches_top].
    - intros (Hn & c & Hr & Pj & Pk & Rj & Rk).
      assert (Kj : nth r sj [] <> []) by (apply Nj, nth_In, Hr).
      assert (Kk : nth r sk [] <> []) by (apply Nk, nth_In; lia).
      apply argmax_iff in Pj; [|exact Kj]. apply argmax_iff in Pk; [|exact Kk]. repeat split; try lia.
      + now apply reaches_top.
      + now apply reaches_top.
      + destruct (memN r taken) eqn:E; [|reflexivity]. apply memN_In in E. contradiction. }
  assert (N : NoDup idx) by (unfold idx; repeat apply NoDup_filter; apply seq_NoDup). clearbody idx.
  set (key := fun r => ((top_score (nth r sj []) + top_score (nth r sk [])) / 2)%Q).
  set (sel := match max_new with Some m => _ | None => idx end).
  assert (S : NoDup sel /\ incl sel idx /\ (forall m, max_new = Some m -> Z.of_nat (length sel) <= m) /\
    (forall r, In r idx -> ~ In r sel -> exists m, max_new = Some m /\ Z.of_nat (length sel) = m /\
       forall q, In q sel -> (key r <= key q)%Q)).
  { unfold sel. destruct max_new as [m|].
    - specialize (Hm m eq_refl). destruct (take_desc argsort key idx m A N Hm) as (S1 & S2 & S3 & S4).
      fold key. set (sl := rows 0%nat idx _) in *. clearbody sl. split; [exact S1|]. split; [exact S2|]. split.
      + intros m' [= <-]. rewrite S3. lia.
      + intros r Hr Hn. exists m. split; [reflexivity|]. split; [|intros q Hq; now apply S4].
        rewrite S3. destruct (le_lt_dec (Z.to_nat m) (length idx)) as [G|G]; [rewrite Nat.min_l by exact G; lia|].
        exfalso. apply Hn. rewrite Nat.min_r in S3 by lia.
        assert (G2 : incl idx sl) by (apply (@NoDup_length_incl _ _ _ S1); [lia|exact S2]). auto.
    - split; [exact N|]. split; [apply incl_refl|]. split; [discriminate|]. intros r Hr Hn. contradiction. }
  clearbody sel. destruct S as (S1 & S2 & S3 & S4).
  assert (F : map fst (map (fun r => (r, Z.of_nat (argmax (nth r sj [])))) sel) = sel).
  { rewrite map_map. cbn. apply map_id. }
  unfold tri_batch. rewrite F, map_length. split; [exact S1|]. split; [|split; [exact S3|]].
  - intros r l H. apply in_map_iff in H. destruct H as (r' & [= <- <-] & H). apply S2, I in H.
    destruct H as (H1 & c & H2). split; [exact H1|]. exists c. split; [exact H2|]. f_equal.
    destruct H2 as (Hr & Pj & _). apply argmax_iff; [apply Nj, nth_In, Hr|exact Pj].
  - intros r c G Hn Hns. assert (Hi : In r idx) by (apply I; eauto).
    destruct (S4 r Hi Hns) as (m & E1 & E2 & E3). exists m. split; [exact E1|]. split; [exact E2|].
    intros cj ck Cj Ck q Hq. specialize (E3 q Hq). unfold key in E3.
    apply S2, I in Hq. destruct Hq as (_ & c' & Hq & _). destruct G as (Hr & _).
    rewrite (confidence_top sj cj r Cj), (confidence_top sj cj q Cj), (confidence_top sk ck r Ck), (confidence_top sk ck q Ck);
      try lia; try (apply Nj, nth_In; lia); try (apply Nk, nth_In; lia).
    set (a := (top_score _ + top_score _)%Q) in *. set (b := (top_score (nth q sj []) + top_score (nth q sk []))%Q) in *. clearbody a b.
    assert (a / 2 == a * (1#2))%Q by (field). assert (b / 2 == b * (1#2))%Q by field. rewrite H, H0 in E3. lra.
Qed.

(* ----- sorting the received rows ----- *)
Lemma ins_row_perm p l : Permutation (ins_row p l) (p :: l).
Proof.
  induction l as [|q l IH]; cbn; [reflexivity|]. destruct (fst p <=? fst q)%nat; [reflexivity|].
  etransitivity; [apply perm_skip, IH|]. apply perm_swap.
Qed.
Lemma sort_rows_perm l : Permutation (sort_rows l) l.
Proof. induction l; cbn; [reflexivity|]. etransitivity; [apply ins_row_perm|]. now constructor. Qed.

Lemma ins_row_sorted p l : ~ In (fst p) (map fst l) -> StronglySorted lt (map fst l) -> StronglySorted lt (map fst (ins_row p l)).
Proof.
  induction l as [|q l IH]; intros N S; cbn [map ins_row] in *; [repeat constructor|].
  inversion S as [|? ? S' F]; subst. cbn in N. destruct (fst p <=? fst q)%nat eqn:E; cbn [map].
  - constructor; [exact S|]. assert (fst p < fst q)%nat by lia. constructor; [exact H|].
    rewrite Forall_forall in *. intros x Hx. specialize (F x Hx). lia.
  - constructor; [apply IH; tauto|]. rewrite Forall_forall in *. intros x Hx.
    apply (Permutation_in _ (Permutation_map fst (ins_row_perm p l))) in Hx. cbn in Hx. destruct Hx as [<-|Hx]; [lia|auto].
Qed.
Lemma sort_rows_sorted l : NoDup (map fst l) -> StronglySorted lt (map fst (sort_rows l)).
Proof.
  induction l as [|p l IH]; intros N; cbn; [constructor|]. inversion N as [|? ? N1 N2]; subst.
  apply ins_row_sorted; [|now apply IH]. intros H. apply N1.
  apply (Permutation_in _ (Permutation_map fst (sort_rows_perm l))). exact H.
Qed.

Lemma received_S rs r i : received (rs ++ [r]) (length (rs ++ [r])) i = received rs (length rs) i ++ r i.
Proof. unfold received. rewrite !firstn_all, map_app, concat_app. cbn. now rewrite app_nil_r. Qed.
Lemma received_prefix rs rs' k i : (k <= length rs)%nat -> received (rs ++ rs') k i = received rs k i.
Proof. intros H. unfold received. now rewrite firstn_app_le. Qed.

Section TriLoop.
Context {X M : Type}.
Variable d : X.
Variable fit : nat -> nat -> list X -> list Z -> M.
Variable scores : M -> list X -> list (list Q).
Variable argsort : list Q -> list nat.
Variables (Xl : list X) (yl : list Z) (Xu : list X).
Variable boot : nat -> list nat.
Variables (thr : option Q) (max_new : option Z).
Hypothesis len : forall m rs, length (scores m rs) = length rs.
Hypothesis wide : forall m rs r, In r (scores m rs) -> r <> [].
Hypothesis sorts : sorts_positions argsort.
Hypothesis max_new_nonneg : forall m, max_new = Some m -> 0 <= m.

Definition T (rs : tri_rounds) (k i : nat) := tri_train d Xl yl Xu (boot i) (received rs k i).
Definition pm (rs : tri_rounds) (k i : nat) : M := fit i k (fst (T rs k i)) (snd (T rs k i)).
Definition round_ok (rs : tri_rounds) (k : nat) (bs : nat -> batch) : Prop :=
  forall i, (i < 3)%nat -> tri_batch thr max_new (scores (pm rs k (fst (others i))) Xu) (scores (pm rs k (snd (others i))) Xu)
    (map fst (received rs k i)) (bs i).

Lemma pm_prefix rs rs' k i : (k <= length rs)%nat -> pm (rs ++ rs') k i = pm rs k i.
Proof. intros H. unfold pm, T. rewrite received_prefix by exact H. reflexivity. Qed.
Lemma round_ok_prefix rs rs' k bs : (k <= length rs)%nat -> round_ok rs k bs -> round_ok (rs ++ rs') k bs.
Proof. intros H R i Hi. rewrite !pm_prefix, received_prefix by exact H. now apply R. Qed.

Lemma map_seq_S {A} (f : nat -> A) n : map f (seq 0 (S n)) = map f (seq 0 n) ++ [f n].
Proof. replace (S n) with (n + 1)%nat by lia. rewrite seq_app, map_app. reflexivity. Qed.

Lemma tri_loop_spec fuel : forall rs done added,
  (forall i, done i = map (fun k => T rs k i) (seq 0 (length rs))) ->
  (forall i, added i = received rs (length rs) i) ->
  (forall k, (k < length rs)%nat -> round_ok rs k (nth k rs (fun _ => []))) ->
  let r := tri_loop d fit scores argsort thr max_new Xl yl Xu boot fuel done added in
  exists rs', let all := rs ++ rs' in
    (length all <= length rs + fuel)%nat /\
    (exists e, (1 <= e)%nat /\ (length all + e <= length rs + fuel + 1)%nat /\
      forall i, tri_calls r i = map (fun k => T all (Nat.min k (length all)) i) (seq 0 (length all + e))) /\
    (forall i, tri_added r i = received all (length all) i) /\
    (forall k, (k < length all)%nat -> round_ok all k (nth k all (fun _ => []))) /\
    (length all = (length rs + fuel)%nat \/ round_ok all (length all) (fun _ => [])).
Proof.
  induction fuel as [|f IH]; intros rs done added Hd Ha Hr; cbn [tri_loop].
  - exists []. rewrite app_nil_r. cbn [tri_calls tri_added]. split; [lia|]. split; [|split; [exact Ha|split; [exact Hr|left; lia]]].
    exists 1%nat. split; [lia|]. split; [lia|]. intros i. replace (length rs + 1)%nat with (S (length rs)) by lia. rewrite map_seq_S.
    rewrite Hd, Ha. f_equal; [|rewrite Nat.min_id; reflexivity].
    apply map_ext_in. intros k Hk. apply in_seq in Hk. now rewrite Nat.min_l by lia.
  - pose (new := tri_new d fit scores argsort thr max_new Xl yl Xu boot done added : nat -> batch).
    fold new.
    assert (R : round_ok rs (length rs) new).
    { intros i _. unfold new, tri_new.
      assert (E : forall j, fit j (length (done j)) (fst (tri_train d Xl yl Xu (boot j) (added j))) (snd (tri_train d Xl yl Xu (boot j) (added j))) = pm rs (length rs) j).
      { intros j. rewrite Hd, map_length, seq_length, Ha. reflexivity. }
      rewrite !E, Ha. apply tri_pick_spec; auto.
      - rewrite !len. reflexivity.
      - intros r. apply wide.
      - intros r. apply wide. }
    clearbody new.
    destruct (Nat.eqb _ 0) eqn:E0.
    + exists []. rewrite app_nil_r. cbn [tri_calls tri_added].
      assert (Z0 : forall i, (i < 3)%nat -> new i = []).
      { intros i Hi. assert (length (new i) = 0)%nat by (destruct i as [|[|[|]]]; lia). now apply length_zero_iff_nil. }
      split; [lia|]. split; [|split; [exact Ha|split; [exact Hr|]]].
      * exists 2%nat. split; [lia|]. split; [lia|]. intros i. replace (length rs + 2)%nat with (S (S (length rs))) by lia. rewrite !map_seq_S.
        rewrite Hd, Ha. rewrite !Nat.min_r by lia. f_equal. f_equal.
        apply map_ext_in. intros k Hk. apply in_seq in Hk. now rewrite Nat.min_l by lia.
      * right. intros i Hi. rewrite <- (Z0 i Hi). now apply R.
    + destruct (IH (rs ++ [new]) (fun i => done i ++ [tri_train d Xl yl Xu (boot i) (added i)]) (fun i => added i ++ new i)) as (rs' & A & (e & B1 & B2 & B3) & C & D & F).
      * intros i. rewrite app_length. cbn [length]. replace (length rs + 1)%nat with (S (length rs)) by lia. rewrite map_seq_S, Hd, Ha. f_equal.
        -- apply map_ext_in. intros k Hk. apply in_seq in Hk. unfold T. now rewrite received_prefix by lia.
        -- unfold T. now rewrite received_prefix by lia.
      * intros i. rewrite received_S, Ha. reflexivity.
      * intros k Hk. rewrite app_length in Hk. cbn in Hk. destruct (Nat.eq_dec k (length rs)) as [->|Hn].
        -- rewrite app_nth2, Nat.sub_diag by lia. cbn [nth]. now apply round_ok_prefix.
        -- rewrite app_nth1 by lia. apply round_ok_prefix; [lia|]. apply Hr. lia.
      * exists (new :: rs'). rewrite <- app_assoc in *. cbn [app] in *. rewrite (app_length rs [new]) in *. cbn [length] in *.
        split; [lia|]. split; [exists e; split; [exact B1|split; [lia|exact B3]]|]. split; [exact C|]. split; [exact D|].
        destruct F as [F|F]; [left; lia|right; exact F].
Qed.

Lemma received_next rs k i : (k < length rs)%nat -> received rs (S k) i = received rs k i ++ nth k rs (fun _ => []) i.
Proof.
  intros H. unfold received.
  assert (E : firstn (S k) rs = firstn k rs ++ [nth k rs (fun _ => [])]).
  { clear - H. revert rs H. induction k as [|k IH]; intros [|r rs] H; cbn [length] in H; try lia; [reflexivity|].
    cbn [firstn nth app]. f_equal. rewrite <- IH by lia. reflexivity. }
  rewrite E, map_app, concat_app. cbn. now rewrite app_nil_r.
Qed.

Lemma received_ok rs i : (i < 3)%nat -> (forall k, (k < length rs)%nat -> round_ok rs k (nth k rs (fun _ => []))) ->
  forall k, (k <= length rs)%nat ->
  NoDup (map fst (received rs k i)) /\ (forall p, In p (received rs k i) -> (fst p < length Xu)%nat).
Proof.
  intros Hi H. induction k as [|k IH]; intros Hk; [split; [constructor|intros p []]|].
  destruct (IH ltac:(lia)) as [IH1 IH2]. destruct (H k ltac:(lia) i Hi) as (N & E & _).
  rewrite received_next by lia. split.
  - rewrite map_app. apply NoDup_app_iff. split; [exact IH1|]. split; [exact N|].
    intros r Hr Hr'. apply in_map_iff in Hr'. destruct Hr' as ([r' l] & Er & Hb). cbn in Er. subst r'. now apply (E r l Hb).
  - intros p Hp. apply in_app_or in Hp. destruct Hp as [Hp|Hp]; [auto|]. destruct p as [r l].
    destruct (E r l Hp) as (_ & c & (Hr & _) & _). rewrite len in Hr. exact Hr.
Qed.

Lemma T_training_set rs k i : NoDup (map fst (received rs k i)) ->
  tri_training_set d Xl yl Xu boot rs k i (fst (T rs k i)) (snd (T rs k i)).
Proof.
  intros N. exists (sort_rows (received rs k i)). split; [apply sort_rows_perm|]. split; [now apply sort_rows_sorted|].
  unfold T, tri_train, rows. cbn [fst snd]. rewrite map_map. split; reflexivity.
Qed.

Lemma others_spec i a b : (i < 3)%nat -> (a < 3)%nat -> (b < 3)%nat -> a <> i -> b <> i -> (a < b)%nat ->
  others i = (a, b).
Proof. intros. destruct i as [|[|[|]]], a as [|[|[|]]], b as [|[|[|]]]; try lia; reflexivity. Qed.

Lemma tri_loop_history max_iter :
  let r := tri_loop d fit scores argsort thr max_new Xl yl Xu boot max_iter (fun _ => []) (fun _ => []) in
  exists rs,
    tri_history d Xl yl Xu boot rs max_iter (tri_calls r) /\
    (forall k, (k < length rs)%nat -> tri_round fit scores Xu thr max_new rs (tri_calls r) k (nth k rs (fun _ => []))) /\
    tri_stop fit scores Xu thr max_new rs max_iter (tri_calls r).
Proof.
  intros r. destruct (tri_loop_spec max_iter [] (fun _ => []) (fun _ => [])) as (rs & A & (e & B1 & B2 & B3) & _ & D & F);
    [reflexivity|reflexivity|intros k Hk; cbn in Hk; lia|].
  cbn [app length] in *. fold r in B3. clearbody r.
  assert (N : forall k i, (k < length rs + e)%nat -> nth k (tri_calls r i) ([], []) = T rs (Nat.min k (length rs)) i).
  { intros k i Hk. rewrite B3, nth_map_seq by exact Hk. reflexivity. }
  assert (Lc : forall i, length (tri_calls r i) = (length rs + e)%nat) by (intros i; rewrite B3, map_length, seq_length; reflexivity).
  assert (P : forall k i, (k <= length rs)%nat -> tri_model fit (tri_calls r) k i = pm rs k i).
  { intros k i Hk. unfold tri_model, pm. rewrite N, Nat.min_l by lia. reflexivity. }
  exists rs. split; [|split].
  - split; [lia|]. intros i Hi. rewrite !Lc. split; [lia|]. split; [reflexivity|].
    destruct (received_ok rs i Hi D (length rs) ltac:(lia)) as [R1 R2]. split; [exact R1|]. split; [exact R2|].
    intros k Hk. rewrite N by exact Hk. apply T_training_set.
    apply (received_ok rs i Hi D). lia.
  - intros k Hk i a b Hi Ha Hb Hai Hbi Hab. rewrite !P by lia. specialize (D k Hk i Hi).
    rewrite (others_spec i a b) in D by assumption. exact D.
  - destruct F as [F|F]; [left; exact F|right]. intros i a b Hi Ha Hb Hai Hbi Hab. rewrite !P by lia. specialize (F i Hi).
    rewrite (others_spec i a b) in F by assumption. exact F.
Qed.
End TriLoop.
