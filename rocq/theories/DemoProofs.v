From Coq Require Import List ZArith Lia Bool QArith Qminmax Permutation Sorted Lqa ZifyBool ZifyNat.
From Verif Require Import Prelude ListFacts QFacts InductModel InductSpec InductProofs InductLoopProofs EnsembleModel EnsembleSpec
  TriProofs ProbaProofs SetredGraphProofs DemoModel DemoSpec.
Import ListNotations.
Open Scope Z_scope.

(* ----- encoding ----- *)
Lemma position_of_spec l cs : In l cs -> exists p, position_of l cs = Ok p /\ (p < length cs)%nat /\ nth p cs 0 = l.
Proof.
  induction cs as [|c cs IH]; intros H; [destruct H|]. cbn [position_of]. destruct (Z.eqb_spec c l) as [->|Hne].
  - exists 0%nat. cbn. split; [reflexivity|]. split; [lia|reflexivity].
  - destruct H as [H|H]; [congruence|]. destruct (IH H) as (p & E & Lp & Np). rewrite E. cbn [bind].
    exists (S p). cbn [length nth]. split; [reflexivity|]. split; [lia|exact Np].
Qed.

Lemma position_of_fail l cs : ~ In l cs -> position_of l cs = Err TypeError.
Proof.
  induction cs as [|c cs IH]; intros H; cbn [position_of]; [reflexivity|].
  destruct (Z.eqb_spec c l) as [->|Hne]; [exfalso; apply H; now left|]. rewrite IH; [reflexivity|]. intros I. apply H. now right.
Qed.

Lemma encode_spec cs : forall pred, (forall l, In l pred -> In l cs) ->
  exists e, encode cs pred = Ok e /\ length e = length pred /\
    forall r, (r < length pred)%nat -> (nth r e 0%nat < length cs)%nat /\ nth (nth r e 0%nat) cs 0 = nth r pred 0.
Proof.
  induction pred as [|l pred IH]; intros H; cbn [encode].
  - exists []. split; [reflexivity|]. split; [reflexivity|]. cbn. intros r Hr. lia.
  - destruct (position_of_spec l cs (H l (or_introl eq_refl))) as (p & E & Lp & Np). rewrite E. cbn [bind].
    destruct (IH (fun x Hx => H x (or_intror Hx))) as (e & Ee & Le & He). rewrite Ee. cbn [bind].
    exists (p :: e). split; [reflexivity|]. split; [cbn; lia|]. intros [|r] Hr; cbn [nth]; [auto|]. apply He. cbn in Hr. lia.
Qed.

Definition enc (cs pred : list Z) : list nat := match encode cs pred with Ok e => e | Err _ => [] end.

Lemma encode_all_spec cs : forall preds, (forall p, In p preds -> forall l, In l p -> In l cs) ->
  encode_all cs preds = Ok (map (enc cs) preds).
Proof.
  induction preds as [|p preds IH]; intros H; cbn [encode_all]; [reflexivity|].
  destruct (encode_spec cs p (H p (or_introl eq_refl))) as (e & E & _). rewrite E. cbn [bind].
  rewrite IH by (intros q Hq; apply H; now right). cbn [bind map]. unfold enc at 2. now rewrite E.
Qed.

Lemma enc_iff cs pred r c : NoDup cs -> (forall l, In l pred -> In l cs) -> (r < length pred)%nat -> (c < length cs)%nat ->
  (nth r (enc cs pred) 0%nat = c <-> nth r pred 0 = nth c cs 0).
Proof.
  intros N H Hr Hc. unfold enc. destruct (encode_spec cs pred H) as (e & -> & _ & He). destruct (He r Hr) as [A B]. split.
  - intros <-. symmetry. exact B.
  - intros E. apply (proj1 (NoDup_nth cs 0) N); auto. congruence.
Qed.

(* ----- majority ----- *)
Lemma filter_combine_map {A B} (f : A -> B) (w : A -> Q) (P : B -> bool) l :
  map snd (filter (fun p : B * Q => P (fst p)) (combine (map f l) (map w l))) = map w (filter (fun a => P (f a)) l).
Proof. induction l as [|a l IH]; cbn; [reflexivity|]. destruct (P (f a)); cbn; [f_equal|]; exact IH. Qed.

Lemma nth_map_seq_Q (f : nat -> Q) n c : (c < n)%nat -> nth c (map f (seq 0 n)) 0%Q = f c.
Proof.
  intros H. rewrite (nth_indep _ 0%Q (f 0%nat)) by (rewrite map_length, seq_length; exact H). rewrite (map_nth f), seq_nth by exact H. reflexivity.
Qed.

Lemma majority_spec idx weights n r : (0 < n)%nat ->
  let '(a, ok) := majority_of idx weights n r in
  (a < n)%nat /\
  (ok = true <-> forall c, (c < n)%nat -> c <> a -> (vote idx weights r c < vote idx weights r a)%Q) /\
  (forall b, (b < n)%nat -> (forall c, (c < n)%nat -> c <> b -> (vote idx weights r c < vote idx weights r b)%Q) -> b = a).
Proof.
  intros Hn. unfold majority_of. cbv zeta. set (row := map (vote idx weights r) (seq 0 n)).
  assert (Lr : length row = n) by (unfold row; now rewrite map_length, seq_length).
  assert (Nr : forall c, (c < n)%nat -> nth c row 0%Q = vote idx weights r c) by (intros c Hc; apply nth_map_seq_Q, Hc).
  assert (NE : row <> []) by (intros E; rewrite E in Lr; cbn in Lr; lia).
  pose proof (argmax_predicts row NE) as P. destruct P as (A & B & C). rewrite Lr in A, B.
  split; [exact A|]. split.
  - rewrite orb_true_iff, forallb_forall. split.
    + intros [H|H] c Hc Hne.
      * apply Nat.leb_le in H. lia.
      * specialize (H c ltac:(apply in_seq; lia)). apply orb_true_iff in H. destruct H as [H|H]; [apply Nat.eqb_eq in H; contradiction|].
        apply Qlt_bool_iff in H. rewrite !Nr in H by assumption. exact H.
    + intros H. right. intros c Hc. apply in_seq in Hc. apply orb_true_iff. destruct (Nat.eqb_spec c (argmax row)); [now left|right].
      apply Qlt_bool_iff. rewrite !Nr by (try exact A; lia). apply H; [lia|assumption].
  - intros b Hb H. apply (predicts_unique row); [|now apply argmax_predicts].
    split; [rewrite Lr; exact Hb|]. rewrite Lr. split.
    + intros j Hj. rewrite !Nr by assumption. destruct (Nat.eq_dec j b) as [->|Ne]; [apply Qle_refl|]. apply Qlt_le_weak. now apply H.
    + intros j Hj. rewrite !Nr by lia. apply H; lia.
Qed.

Lemma gain_worth n e : gain n e == worth n e.
Proof. unfold gain, worth. cbn. ring. Qed.
Lemma worth_ext n n' e e' : n == n' -> e == e' -> worth n e == worth n' e'.
Proof. intros H1 H2. unfold worth. rewrite H1, H2. reflexivity. Qed.

Section DemoLoop.
Context {X M : Type}.
Variable d : X.
Variable L : nat.
Variable fit : nat -> nat -> list X -> list Z -> M.
Variable predict : M -> list X -> list Z.
Variable classes_ : M -> option (list Z).
Variable lower middle : list Z -> list Z -> Q.
Variables (Xl : list X) (yl : list Z) (Xu : list X).
Hypothesis classes_of_fit : forall i k Xt yt, classes_ (fit i k Xt yt) = Some (uniqueZ yt).
Hypothesis predict_length : forall m Zs, length (predict m Zs) = length Zs.
Hypothesis predict_seen : forall i k Xt yt Zs l, yt <> [] -> In l (predict (fit i k Xt yt) Zs) -> In l yt.
Hypothesis lower_range : forall a b, (0 <= lower a b <= 1)%Q.
Hypothesis Lpos : (0 < L)%nat.
Hypothesis labelled : yl <> [].

Notation examples := (examples d Xl yl Xu).
Notation learner_at := (learner_at d fit Xl yl Xu).
Notation mean_lower := (mean_lower d L fit predict lower Xl yl Xu).
Notation noise := (noise d L fit predict lower Xl yl Xu).
Notation demo_round := (demo_round d L fit predict lower middle Xl yl Xu).

Lemma batches_app rs rs' i : batches (rs ++ rs') i = batches rs i ++ batches rs' i.
Proof. apply map_app. Qed.
Lemma batches_length rs i : length (batches rs i) = length rs.
Proof. apply map_length. Qed.

Lemma examples_prefix rs rs' k i : (k <= length rs)%nat -> examples (rs ++ rs') k i = examples rs k i.
Proof. intros H. unfold DemoSpec.examples. rewrite batches_app. apply training_set_prefix. now rewrite batches_length. Qed.
Lemma learner_prefix rs rs' k i : (k <= length rs)%nat -> learner_at (rs ++ rs') k i = learner_at rs k i.
Proof. intros H. unfold DemoSpec.learner_at. now rewrite examples_prefix. Qed.
Lemma mean_lower_prefix rs rs' k : (k <= length rs)%nat -> mean_lower (rs ++ rs') k = mean_lower rs k.
Proof.
  intros H. unfold DemoSpec.mean_lower. do 2 f_equal. apply map_ext. intros i. now rewrite examples_prefix, learner_prefix.
Qed.
Lemma noise_prefix rs rs' k i : (k <= length rs)%nat -> noise (rs ++ rs') k i = noise rs k i.
Proof.
  intros H. unfold DemoSpec.noise. f_equal. apply map_ext_in. intros j Hj. apply in_seq in Hj.
  rewrite mean_lower_prefix by lia. rewrite batches_app, app_nth1 by (rewrite batches_length; lia). reflexivity.
Qed.
Lemma round_prefix rs rs' k bs : (k <= length rs)%nat -> demo_round rs k bs -> demo_round (rs ++ rs') k bs.
Proof.
  intros H R i Hi. destruct (R i Hi) as (b & D & B). exists b.
  assert (W : forall r l, wins d L fit predict middle Xl yl Xu (rs ++ rs') k r l <-> wins d L fit predict middle Xl yl Xu rs k r l).
  { intros r l. unfold wins, label_weight, says.
    assert (E : forall l, map (fun i => middle yl (predict (learner_at (rs ++ rs') k i) Xl))
        (filter (fun i => if Z.eq_dec (nth r (predict (learner_at (rs ++ rs') k i) Xu) 0) l then true else false) (seq 0 L)) =
      map (fun i => middle yl (predict (learner_at rs k i) Xl))
        (filter (fun i => if Z.eq_dec (nth r (predict (learner_at rs k i) Xu) 0) l then true else false) (seq 0 L))).
    { intros l0. erewrite filter_ext; [apply map_ext|]; intros j; cbv beta; rewrite learner_prefix by exact H; reflexivity. }
    split; intros (A & C); (split; [exact A|]); intros l' Hl Hne; specialize (C l' Hl Hne); [rewrite <- !E|rewrite !E]; exact C. }
  split.
  - destruct D as (S & D). split; [exact S|]. intros r l. rewrite D. unfold disputed, says.
    rewrite W, learner_prefix, batches_app, firstn_app_le by (try rewrite batches_length; exact H). reflexivity.
  - unfold improves in *. rewrite examples_prefix, noise_prefix, mean_lower_prefix by exact H. exact B.
Qed.

(* ----- the state of a learner after the rounds rs ----- *)
Definition linv (rs : tri_rounds) (i : nat) (s : learner (X := X)) : Prop :=
  (l_X s, l_y s) = examples rs (length rs) i /\
  l_added s = taken_rows (batches rs i) /\ NoDup (l_added s) /\ (forall r, In r (l_added s) -> (r < length Xu)%nat) /\
  (l_err s == noise rs (length rs) i)%Q /\
  l_calls s = map (fun k => examples rs k i) (seq 0 (length rs)) /\
  (forall l, In l (l_y s) <-> In l yl).

Lemma linv_start i : linv [] i (start Xl yl).
Proof.
  unfold linv. cbn. unfold DemoSpec.examples, training_set, batches. cbn. rewrite !app_nil_r.
  split; [reflexivity|]. split; [reflexivity|]. split; [constructor|]. split; [intros r []|]. split; [reflexivity|]. split; [reflexivity|tauto].
Qed.

Lemma linv_model rs i s : linv rs i s -> model_of fit i s = learner_at rs (length rs) i.
Proof.
  intros (E & _ & _ & _ & _ & C & _). unfold model_of, DemoSpec.learner_at. rewrite C, map_length, seq_length, <- E. reflexivity.
Qed.

Lemma uniqueZ_ext a b : (forall l, In l a <-> In l b) -> uniqueZ a = uniqueZ b.
Proof. intros H. apply ascending_ext; try apply uniqueZ_ascending. intros l. now rewrite !uniqueZ_In. Qed.

Lemma linv_labels rs i s : linv rs i s -> uniqueZ (l_y s) = uniqueZ yl.
Proof. intros (_ & _ & _ & _ & _ & _ & H). now apply uniqueZ_ext. Qed.

Lemma resolve_same ms c : (forall m, In m ms -> classes_ m = Some c) -> resolve classes_ (Some c) ms = Ok (Some c).
Proof.
  induction ms as [|m ms IH]; intros H; cbn; [reflexivity|]. rewrite (H m (or_introl eq_refl)).
  rewrite (proj2 (same_list_true c c) eq_refl). apply IH. intros x Hx. apply H. now right.
Qed.

Lemma resolve_classes_same ms c y : ms <> [] -> (forall m, In m ms -> classes_ m = Some c) -> resolve_classes classes_ ms y = Ok c.
Proof.
  intros NE H. unfold resolve_classes. destruct ms as [|m ms]; [congruence|]. cbn [resolve]. rewrite (H m (or_introl eq_refl)).
  rewrite resolve_same by (intros x Hx; apply H; now right). reflexivity.
Qed.

Lemma combine_seq_map {A} (ss : list A) dd : combine (seq 0 (length ss)) ss = map (fun i => (i, nth i ss dd)) (seq 0 (length ss)).
Proof.
  rewrite <- (map_nth_seq ss dd) at 2. generalize (seq 0 (length ss)). induction l; cbn; [reflexivity|]. f_equal. exact IHl.
Qed.
Lemma combine_map_map {A B C} (f : A -> B) (g : A -> C) l : combine (map f l) (map g l) = map (fun a => (f a, g a)) l.
Proof. induction l; cbn; [reflexivity|]. f_equal. exact IHl. Qed.

Lemma Qmean_lower_ok rs ss : length ss = L -> (forall i, (i < L)%nat -> linv rs i (nth i ss (start Xl yl))) ->
  (avg_lower predict lower (map (fun i => learner_at rs (length rs) i) (seq 0 L)) (map fitted ss) == mean_lower rs (length rs))%Q.
Proof.
  intros Ls I. unfold avg_lower.
  assert (E : map (fun p : M * learner => lower (l_y (snd p)) (predict (fst p) (l_X (snd p))))
      (combine (map (fun i => learner_at rs (length rs) i) (seq 0 L)) (map fitted ss)) =
    map (fun i => lower (snd (examples rs (length rs) i)) (predict (learner_at rs (length rs) i) (fst (examples rs (length rs) i)))) (seq 0 L)).
  { rewrite <- (map_nth_seq ss (start Xl yl)) at 1. rewrite Ls, map_map, combine_map_map, map_map. apply map_ext_in. intros i Hi. apply in_seq in Hi.
    destruct (I i ltac:(lia)) as (Ei & _). cbn [fst snd fitted l_y l_X]. rewrite <- Ei. reflexivity. }
  rewrite E. unfold DemoSpec.mean_lower, Qmean.
  set (vs := map _ (seq 0 L)). assert (Lv : length vs = L) by (unfold vs; now rewrite map_length, seq_length).
  assert (V : forall x, In x vs -> (0 <= x <= 1)%Q).
  { intros x Hx. unfold vs in Hx. apply in_map_iff in Hx. destruct Hx as (i & <- & _). apply lower_range. }
  clearbody vs.
  assert (T0 : (0 <= total vs)%Q) by (apply Qsum_nonneg; intros x Hx; apply V, Hx).
  assert (T1 : (total vs <= inject_Z (Z.of_nat (length vs)))%Q).
  { clear -V. induction vs as [|a vs IH]; unfold total in *; cbn [fold_right length]; [apply Qle_refl|].
    rewrite Nat2Z.inj_succ. unfold Z.succ. rewrite inject_Z_plus. specialize (IH (fun x Hx => V x (or_intror Hx))). specialize (V a (or_introl eq_refl)). change (inject_Z 1) with 1%Q. lra. }
  rewrite Lv in T1. unfold lenZ. rewrite Lv. change (Qsum vs) with (total vs).
  assert (PL : (0 < inject_Z (Z.of_nat L))%Q) by (change 0%Q with (inject_Z 0); rewrite <- Zlt_Qlt; lia).
  set (q := (total vs / inject_Z (Z.of_nat L))%Q).
  assert (Q0 : (0 <= q)%Q) by (apply Qle_shift_div_l; [exact PL|lra]).
  assert (Q1 : (q <= 1)%Q) by (apply Qle_shift_div_r; [exact PL|lra]).
  rewrite Q.max_l by exact Q0. rewrite Q.min_l by exact Q1. reflexivity.
Qed.

Lemma total_app a b : (total (a ++ b) == total a + total b)%Q.
Proof. unfold total. induction a; cbn; [ring|]. rewrite IHa. ring. Qed.

Lemma noise_step rs bs i : (noise (rs ++ [bs]) (S (length rs)) i ==
  noise rs (length rs) i + (1 - mean_lower rs (length rs)) * size (bs i))%Q.
Proof.
  unfold DemoSpec.noise at 1. rewrite seq_S, map_app, total_app. cbn [map plus].
  fold (noise (rs ++ [bs]) (length rs) i). rewrite noise_prefix by lia. rewrite mean_lower_prefix by lia.
  rewrite batches_app, app_nth2 by (rewrite batches_length; lia). rewrite batches_length, Nat.sub_diag. cbn [batches map nth].
  unfold total. cbn [fold_right]. ring.
Qed.

Lemma examples_step rs bs i : examples (rs ++ [bs]) (S (length rs)) i =
  (fst (examples rs (length rs) i) ++ at_positions d Xu (map fst (bs i)), snd (examples rs (length rs) i) ++ map snd (bs i)).
Proof.
  unfold DemoSpec.examples, training_set. rewrite batches_app.
  replace (S (length rs)) with (length (batches rs i ++ batches [bs] i)) by (rewrite app_length, !batches_length; cbn; lia).
  rewrite firstn_all. rewrite <- (batches_length rs i), firstn_all. cbn [fst snd batches map].
  rewrite taken_rows_app, concat_app, map_app. unfold at_positions, taken_rows at 2. cbn [concat]. rewrite app_nil_r, map_app, !app_assoc. reflexivity.
Qed.

Lemma linv_step rs bs i s s' : linv rs i s ->
  l_X s' = l_X s ++ at_positions d Xu (map fst (bs i)) -> l_y s' = l_y s ++ map snd (bs i) ->
  l_added s' = l_added s ++ map fst (bs i) ->
  (l_err s' == l_err s + (1 - mean_lower rs (length rs)) * size (bs i))%Q ->
  l_calls s' = l_calls s ++ [(l_X s, l_y s)] ->
  NoDup (map fst (bs i)) -> (forall r l, In (r, l) (bs i) -> (r < length Xu)%nat /\ ~ In r (l_added s) /\ In l yl) ->
  linv (rs ++ [bs]) i s'.
Proof.
  intros (E & A & N & R & Er & C & Y) EX EY EA EE EC ND HB.
  assert (Ln : length (rs ++ [bs]) = S (length rs)) by (rewrite app_length; cbn; lia).
  unfold linv. rewrite Ln. split; [|split; [|split; [|split; [|split; [|split]]]]].
  - rewrite examples_step, <- E. cbn [fst snd]. now rewrite EX, EY.
  - rewrite EA, A, batches_app, taken_rows_app. unfold taken_rows at 3. cbn [batches map concat]. now rewrite app_nil_r.
  - rewrite EA. apply NoDup_app_iff. split; [exact N|]. split; [exact ND|]. intros r Hr Hb. apply in_map_iff in Hb.
    destruct Hb as ((r', l) & <- & Hb). destruct (HB r' l Hb) as (_ & Hn & _). contradiction.
  - intros r Hr. rewrite EA in Hr. apply in_app_or in Hr. destruct Hr as [Hr|Hr]; [now apply R|].
    apply in_map_iff in Hr. destruct Hr as ((r', l) & <- & Hb). now apply (HB r' l).
  - rewrite EE, noise_step, Er. reflexivity.
  - rewrite EC, seq_S, map_app, C, E. cbn [map plus]. f_equal.
    + apply map_ext_in. intros k Hk. apply in_seq in Hk. symmetry. apply examples_prefix. lia.
    + f_equal. symmetry. apply examples_prefix. lia.
  - intros l. rewrite EY, in_app_iff. split.
    + intros [H|H]; [now apply Y|]. apply in_map_iff in H. destruct H as ((r, l') & <- & Hb). now apply (HB r l').
    + intros H. left. now apply Y.
Qed.

Lemma linv_skip rs bs i s : linv rs i s -> bs i = [] -> linv (rs ++ [bs]) i (fitted s).
Proof.
  intros I Eb. apply (linv_step rs bs i s); auto; rewrite Eb; cbn; rewrite ?app_nil_r; auto.
  - unfold size. cbn. change (inject_Z 0) with 0%Q. ring.
  - constructor.
  - intros r l [].
Qed.

Section Round.
Variable rs : tri_rounds.
Variable ss : list (learner (X := X)).
Hypothesis Ls : length ss = L.
Hypothesis I : forall i, (i < L)%nat -> linv rs i (nth i ss (start Xl yl)).
Notation k := (length rs).
Let cs := uniqueZ yl.
Let ms := map (fun i => learner_at rs k i) (seq 0 L).
Let idx := map (fun i => enc cs (predict (learner_at rs k i) Xu)) (seq 0 L).
Let weights := map (fun i => middle yl (predict (learner_at rs k i) Xl)) (seq 0 L).

Lemma models_eq : map (fun p : nat * learner => model_of fit (fst p) (snd p)) (combine (seq 0 L) ss) = ms.
Proof.
  unfold ms. rewrite <- Ls, (combine_seq_map ss (start Xl yl)), map_map. apply map_ext_in. intros i Hi. apply in_seq in Hi.
  cbn [fst snd]. apply linv_model, I. lia.
Qed.

Lemma seen i Zs l : (i < L)%nat -> In l (predict (learner_at rs k i) Zs) -> In l cs.
Proof.
  intros Hi H. unfold cs. rewrite uniqueZ_In. destruct (I i Hi) as (E & _ & _ & _ & _ & _ & Y). apply Y.
  unfold DemoSpec.learner_at in H. rewrite <- E in H. cbn [fst snd] in H. apply (predict_seen _ _ _ _ _ _) in H; [exact H|].
  intros E0. destruct yl as [|y0 yr]; [congruence|]. assert (In y0 (l_y (nth i ss (start Xl (y0 :: yr))))) by (apply Y; now left).
  rewrite E0 in H0. destruct H0.
Qed.

Lemma resolve_ok : resolve_classes classes_ ms yl = Ok cs.
Proof.
  apply resolve_classes_same.
  - unfold ms. destruct L; [lia|discriminate].
  - intros m Hm. unfold ms in Hm. apply in_map_iff in Hm. destruct Hm as (i & <- & Hi). apply in_seq in Hi.
    unfold DemoSpec.learner_at. rewrite classes_of_fit. f_equal.
    pose proof (I i ltac:(lia)) as Ii. pose proof (linv_labels _ _ _ Ii) as E. destruct Ii as (Ee & _). rewrite <- Ee. exact E.
Qed.

Lemma encode_ok : encode_all cs (map (fun m => predict m Xu) ms) = Ok idx.
Proof.
  unfold ms. rewrite map_map. rewrite encode_all_spec.
  - unfold idx. now rewrite map_map.
  - intros p Hp l Hl. apply in_map_iff in Hp. destruct Hp as (i & <- & Hi). apply in_seq in Hi. apply (seen i Xu l); [lia|exact Hl].
Qed.

Lemma cs_pos : (0 < length cs)%nat.
Proof.
  unfold cs. destruct yl as [|y0 yr] eqn:E; [congruence|]. assert (In y0 (uniqueZ (y0 :: yr))) by (apply uniqueZ_In; now left).
  destruct (uniqueZ (y0 :: yr)); [destruct H|cbn; lia].
Qed.

Lemma vote_weight r c : (r < length Xu)%nat -> (c < length cs)%nat ->
  vote idx weights r c = label_weight d L fit predict middle Xl yl Xu rs k r (nth c cs 0).
Proof.
  intros Hr Hc. unfold vote, idx, weights, label_weight, total, Qsum.
  rewrite (filter_combine_map (fun i => enc cs (predict (learner_at rs k i) Xu)) (fun i => middle yl (predict (learner_at rs k i) Xl)) (fun e => Nat.eqb (nth r e 0%nat) c)).
  f_equal. f_equal. apply filter_ext_in. intros i Hi. apply in_seq in Hi. unfold says.
  assert (E : nth r (enc cs (predict (learner_at rs k i) Xu)) 0%nat = c <-> nth r (predict (learner_at rs k i) Xu) 0 = nth c cs 0).
  { apply enc_iff; auto; [apply uniqueZ_NoDup| |rewrite predict_length; exact Hr]. intros l Hl. apply (seen i Xu l); [lia|exact Hl]. }
  destruct (Nat.eqb_spec (nth r (enc cs (predict (learner_at rs k i) Xu)) 0%nat) c) as [E1|E1];
    destruct (Z.eq_dec (nth r (predict (learner_at rs k i) Xu) 0) (nth c cs 0)) as [E2|E2]; auto; exfalso; tauto.
Qed.

Lemma wins_iff r l : (r < length Xu)%nat ->
  (wins d L fit predict middle Xl yl Xu rs k r l <->
   snd (majority_of idx weights (length cs) r) = true /\ nth (fst (majority_of idx weights (length cs) r)) cs 0 = l).
Proof.
  intros Hr. pose proof (majority_spec idx weights (length cs) r cs_pos) as MS.
  destruct (majority_of idx weights (length cs) r) as [a ok]. destruct MS as (La & Ok & Un). cbn [fst snd].
  assert (NDc : NoDup cs) by apply uniqueZ_NoDup.
  unfold wins. split.
  - intros (Hl & H). assert (Hc : In l cs) by (unfold cs; now rewrite uniqueZ_In).
    apply (In_nth _ _ 0) in Hc. destruct Hc as (b & Lb & <-).
    assert (Sb : forall c, (c < length cs)%nat -> c <> b -> (vote idx weights r c < vote idx weights r b)%Q).
    { intros c Hc Hne. rewrite !vote_weight by assumption. apply H.
      - rewrite <- uniqueZ_In. now apply nth_In.
      - intros E. apply Hne. apply (proj1 (NoDup_nth cs 0) NDc); auto. }
    assert (b = a) by (apply Un; assumption). subst b. split; [now apply Ok|reflexivity].
  - intros (Hok & <-). split; [rewrite <- uniqueZ_In; now apply nth_In|]. intros l' Hl' Hne.
    assert (Hc : In l' cs) by (unfold cs; now rewrite uniqueZ_In).
    apply (In_nth _ _ 0) in Hc. destruct Hc as (c & Lc & <-). rewrite <- !vote_weight by assumption.
    apply Ok; [exact Hok|exact Lc|]. intros ->. congruence.
Qed.

Let maj := map (majority_of idx weights (length cs)) (seq 0 (length Xu)).
Let avg := avg_lower predict lower ms (map fitted ss).

Lemma maj_nth r : (r < length Xu)%nat -> nth r maj (0%nat, false) = majority_of idx weights (length cs) r.
Proof.
  intros H. unfold maj. rewrite (nth_indep _ (0%nat, false) (majority_of idx weights (length cs) 0%nat)) by (rewrite map_length, seq_length; exact H).
  rewrite (map_nth (majority_of idx weights (length cs))), seq_nth by exact H. reflexivity.
Qed.

(* what happens to learner i *)
Lemma update_spec i : (i < L)%nat ->
  let s := nth i ss (start Xl yl) in
  exists b, all_disputed d L fit predict middle Xl yl Xu rs k i b /\
    let '(s', ch) := update_learner d Xu cs maj avg (enc cs (predict (learner_at rs k i) Xu)) (fitted s) in
    (b <> [] /\ improves d L fit predict lower Xl yl Xu rs k i b /\ ch = true /\ forall bs, bs i = b -> linv (rs ++ [bs]) i s') \/
    ((b = [] \/ ~ improves d L fit predict lower Xl yl Xu rs k i b) /\ ch = false /\ s' = fitted s).
Proof.
  intros Hi s. pose proof (I i Hi) as Ii. fold s in Ii. pose proof Ii as (E & A & N & R & Er & C & Y).
  unfold update_learner. cbn [fitted l_added l_y l_err l_X l_calls].
  set (mine := enc cs (predict (learner_at rs k i) Xu)).
  set (rows_i := filter _ (seq 0 (length Xu))).
  set (lab := fun r => nth (fst (nth r maj (0%nat, false))) cs 0).
  set (b := map (fun r => (r, lab r)) rows_i).
  assert (Eb1 : map fst b = rows_i) by (unfold b; rewrite map_map; apply map_id).
  assert (Eb2 : map snd b = map lab rows_i) by (unfold b; rewrite map_map; reflexivity).
  assert (D : all_disputed d L fit predict middle Xl yl Xu rs k i b).
  { split; [rewrite Eb1; unfold rows_i; apply StronglySorted_filter, seq_sorted|].
    intros r l. unfold b. rewrite in_map_iff. unfold disputed.
    assert (TK : taken_rows (firstn k (batches rs i)) = l_added s) by (rewrite A; rewrite <- (batches_length rs i), firstn_all; reflexivity).
    rewrite TK.
    assert (RI : (r < length Xu)%nat -> (In r rows_i <-> snd (majority_of idx weights (length cs) r) = true /\
        nth r mine 0%nat <> fst (majority_of idx weights (length cs) r) /\ ~ In r (l_added s))).
    { intros Hr. unfold rows_i. rewrite filter_In, in_seq, maj_nth by exact Hr.
      rewrite !andb_true_iff, !negb_true_iff, Nat.eqb_neq.
      assert (Em : memN r (l_added s) = false <-> ~ In r (l_added s)).
      { destruct (memN r (l_added s)) eqn:Em; [apply memN_In in Em|]; split; try congruence; try tauto. intros _ H. apply memN_In in H. congruence. }
      rewrite Em. split; [intros (_ & (H1 & H2) & H3); auto|intros (H1 & H2 & H3); split; [lia|auto]]. }
    pose proof (majority_spec idx weights (length cs) r cs_pos) as MS.
    assert (Fst : (fst (majority_of idx weights (length cs) r) < length cs)%nat).
    { destruct (majority_of idx weights (length cs) r). cbn. apply MS. }
    split.
    - intros (r' & Ep & Hr'). injection Ep as -> <-.
      assert (Hr : (r < length Xu)%nat). { unfold rows_i in Hr'. apply filter_In in Hr'. destruct Hr' as [Hr' _]. apply in_seq in Hr'. lia. }
      apply (RI Hr) in Hr'. destruct Hr' as (H1 & H2 & H3). unfold lab. rewrite maj_nth by exact Hr.
      split; [exact Hr|]. split; [exact H3|]. split; [apply (wins_iff r _ Hr); auto|].
      unfold says. intros E2. apply H2. apply enc_iff; auto.
      + apply uniqueZ_NoDup.
      + intros x Hx. apply (seen i Xu x Hi Hx).
      + rewrite predict_length. exact Hr.
    - intros (Hr & Hn & W & Hs). apply (wins_iff r l Hr) in W. destruct W as (W1 & W2). exists r.
      split; [f_equal; unfold lab; rewrite maj_nth by exact Hr; exact W2|].
      apply (RI Hr). split; [exact W1|]. split; [|exact Hn]. intros E2. apply Hs. unfold says. rewrite <- W2.
      apply enc_iff; auto.
      + apply uniqueZ_NoDup.
      + intros x Hx. apply (seen i Xu x Hi Hx).
      + rewrite predict_length. exact Hr. }
  exists b. split; [exact D|].
  assert (Lb : length b = length rows_i) by (unfold b; apply map_length).
  assert (Eav : (avg == mean_lower rs k)%Q) by (unfold avg, ms; now apply Qmean_lower_ok).
  destruct rows_i as [|r0 rr] eqn:Er0.
  - right. split; [left; destruct b; [reflexivity|cbn in Lb; lia]|]. auto.
  - rewrite <- Er0 in *.
    assert (Bne : b <> []) by (intros E0; rewrite E0, Er0 in Lb; cbn in Lb; lia).
    assert (EL : lenZ (l_y s) = Z.of_nat (length (snd (examples rs k i)))) by (rewrite <- E; reflexivity).
    assert (Im : improves d L fit predict lower Xl yl Xu rs k i b <->
       (gain (inject_Z (lenZ (l_y s))) (l_err s) < gain (inject_Z (lenZ (l_y s)) + inject_Z (lenZ rows_i)) (l_err s + (1 - avg) * inject_Z (lenZ rows_i)))%Q).
    { unfold improves. cbv zeta. rewrite !gain_worth, EL. unfold size, lenZ. rewrite Lb.
      rewrite (worth_ext _ _ (l_err s) _ (Qeq_refl _) Er).
      rewrite (worth_ext _ _ (l_err s + (1 - avg) * inject_Z (Z.of_nat (length rows_i))) (noise rs k i + (1 - mean_lower rs k) * inject_Z (Z.of_nat (length rows_i))) (Qeq_refl _)); [reflexivity|].
      now rewrite Er, Eav. }
    destruct (Qlt_bool _ _) eqn:G.
    + apply Qlt_bool_iff in G. left. split; [exact Bne|]. split; [now apply Im|]. split; [reflexivity|].
      intros bs Ebs. apply (linv_step rs bs i s); auto; rewrite ?Ebs, ?Eb1, ?Eb2; cbn [l_X l_y l_added l_err l_calls]; auto.
      * rewrite Eav. unfold size, lenZ. rewrite Lb. reflexivity.
      * unfold rows_i. apply filter_seq_NoDup.
      * intros r l Hb. apply D in Hb. destruct Hb as (H1 & H2 & (H3 & _) & _). split; [exact H1|]. split; [|exact H3].
        rewrite <- (batches_length rs i), firstn_all, <- A in H2. exact H2.
    + right. split; [right; intros H; apply Im in H; apply Qlt_bool_iff in H; congruence|]. auto.
Qed.
End Round.

Lemma finite_choice {B} (P : nat -> B -> Prop) (b0 : B) n : (forall i, (i < n)%nat -> exists b, P i b) ->
  exists f, forall i, (i < n)%nat -> P i (f i).
Proof.
  induction n as [|n IH]; intros H.
  - exists (fun _ => b0). intros i Hi. lia.
  - destruct IH as (f & Hf); [intros i Hi; apply H; lia|]. destruct (H n ltac:(lia)) as (b & Hb).
    exists (fun i => if Nat.eqb i n then b else f i). intros i Hi. destruct (Nat.eqb_spec i n) as [->|Ne]; [exact Hb|]. apply Hf. lia.
Qed.

Lemma linv_moves rs i s calls mi : linv rs i s -> (length rs <= mi)%nat ->
  (calls = l_calls (fitted s) \/ (calls = l_calls (fitted (fitted s)) /\ (length rs < mi)%nat)) ->
  moves_rows_once d mi Xl yl Xu (batches rs i) calls (pool_after d Xu (batches rs i) (length rs)).
Proof.
  intros (E & A & N & R & _ & C & _) Hm Hc. unfold moves_rows_once. rewrite batches_length.
  rewrite A in N, R. split; [exact N|]. split; [exact R|]. split; [reflexivity|]. split; [exact Hm|].
  assert (Ld : length (l_calls s) = length rs) by (rewrite C, map_length, seq_length; reflexivity).
  assert (Nd : forall k, (k < length rs)%nat -> nth k (l_calls s) ([], []) = examples rs k i).
  { intros k Hk. rewrite C. rewrite (nth_indep _ ([], []) (examples rs 0%nat i)) by (rewrite map_length, seq_length; exact Hk).
    rewrite (map_nth (fun k => examples rs k i)), seq_nth by exact Hk. reflexivity. }
  destruct Hc as [->|[-> Hlt]]; cbn [fitted l_calls l_X l_y].
  - rewrite app_length. cbn [length]. split; [lia|]. intros k Hk. destruct (Nat.eq_dec k (length rs)) as [->|Ne].
    + rewrite app_nth2, Ld, Nat.sub_diag, Nat.min_id by lia. exact E.
    + rewrite app_nth1, Nat.min_l by lia. apply Nd. lia.
  - rewrite !app_length. cbn [length]. split; [lia|]. intros k Hk. destruct (Nat.eq_dec k (S (length rs))) as [->|Ne].
    + rewrite app_nth2 by (rewrite app_length; cbn; lia). rewrite app_length, Ld. cbn [length].
      replace (S (length rs) - (length rs + 1))%nat with 0%nat by lia. rewrite Nat.min_r by lia. exact E.
    + rewrite app_nth1 by (rewrite app_length; cbn; lia). destruct (Nat.eq_dec k (length rs)) as [->|Ne2].
      * rewrite app_nth2, Ld, Nat.sub_diag, Nat.min_id by lia. exact E.
      * rewrite app_nth1, Nat.min_l by lia. apply Nd. lia.
Qed.

Notation demo_loop := (demo_loop d L fit predict classes_ lower middle).

Definition rounds_fine (rs : tri_rounds) : Prop := forall k, (k < length rs)%nat ->
  demo_round rs k (nth k rs (fun _ => [])) /\ exists i, (i < L)%nat /\ nth k rs (fun _ => []) i <> [].

Lemma nth_map_fitted (ss : list (learner (X := X))) i : (i < length ss)%nat -> nth i (map fitted ss) (start Xl yl) = fitted (nth i ss (start Xl yl)).
Proof. intros H. rewrite (nth_indep _ _ (fitted (start Xl yl))) by (rewrite map_length; exact H). apply map_nth. Qed.

Lemma demo_loop_spec fuel : forall rs ss, length ss = L -> (forall i, (i < L)%nat -> linv rs i (nth i ss (start Xl yl))) ->
  rounds_fine rs ->
  exists rs' sF, let all := rs ++ rs' in
    demo_loop Xl yl Xu fuel ss = Ok sF /\ length sF = L /\ rounds_fine all /\ (length all <= length rs + fuel)%nat /\
    (length all = (length rs + fuel)%nat \/ demo_round all (length all) (fun _ => [])) /\
    forall i, (i < L)%nat -> exists s, linv all i s /\
      (nth i sF (start Xl yl) = fitted s \/ (nth i sF (start Xl yl) = fitted (fitted s) /\ (length all < length rs + fuel)%nat)).
Proof.
  induction fuel as [|f IH]; intros rs ss Ls I RF.
  - exists [], (map fitted ss). cbv zeta. rewrite app_nil_r. cbn [DemoModel.demo_loop]. split; [reflexivity|].
    split; [now rewrite map_length|]. split; [exact RF|]. split; [lia|]. split; [left; lia|].
    intros i Hi. exists (nth i ss (start Xl yl)). split; [now apply I|]. left. apply nth_map_fitted. lia.
  - cbn [DemoModel.demo_loop]. rewrite (models_eq rs ss Ls I). rewrite (resolve_ok rs ss Ls I). cbn [bind].
    rewrite (encode_ok rs ss Ls I). cbn [bind]. rewrite map_map.
    set (k := length rs) in *. set (cs := uniqueZ yl).
    set (idx := map (fun i => enc cs (predict (learner_at rs k i) Xu)) (seq 0 L)).
    set (weights := map (fun i => middle yl (predict (learner_at rs k i) Xl)) (seq 0 L)).
    set (maj := map (majority_of idx weights (length cs)) (seq 0 (length Xu))).
    set (avg := avg_lower predict lower (map (fun i => learner_at rs k i) (seq 0 L)) (map fitted ss)).
    set (upd := fun i => update_learner d Xu cs maj avg (enc cs (predict (learner_at rs k i) Xu)) (fitted (nth i ss (start Xl yl)))).
    assert (Eout : map (fun p => update_learner d Xu cs maj avg (fst p) (snd p)) (combine idx (map fitted ss)) = map upd (seq 0 L)).
    { unfold idx. rewrite <- (map_nth_seq ss (start Xl yl)) at 1. rewrite Ls, map_map, combine_map_map, map_map. reflexivity. }
    rewrite Eout. clear Eout.
    destruct (finite_choice (fun i b => all_disputed d L fit predict middle Xl yl Xu rs k i b /\
      ((b <> [] /\ improves d L fit predict lower Xl yl Xu rs k i b /\ snd (upd i) = true /\ forall bs, bs i = b -> linv (rs ++ [bs]) i (fst (upd i))) \/
       ((b = [] \/ ~ improves d L fit predict lower Xl yl Xu rs k i b) /\ snd (upd i) = false /\ fst (upd i) = fitted (nth i ss (start Xl yl))))) ([] : batch) L) as (B & HB).
    { intros i Hi. destruct (update_spec rs ss Ls I i Hi) as (b & D & U). exists b. split; [exact D|].
      fold k cs in U. fold idx weights in U. fold maj avg in U. fold (upd i) in U. destruct (upd i) as [s' ch]. exact U. }
    set (bs := fun i => if snd (upd i) then B i else ([] : batch)).
    assert (RN : demo_round rs k bs).
    { intros i Hi. destruct (HB i Hi) as (D & U). exists (B i). split; [exact D|]. unfold bs.
      destruct U as [(U1 & U2 & U3 & _)|(U1 & U2 & _)]; [left; rewrite U3; auto|right; rewrite U2; auto]. }
    destruct (existsb snd (map upd (seq 0 L))) eqn:Ch.
    + apply existsb_exists in Ch. destruct Ch as (p & Hp & Ep). apply in_map_iff in Hp. destruct Hp as (i0 & <- & Hi0). apply in_seq in Hi0.
      assert (Lb : length (rs ++ [bs]) = S k) by (rewrite app_length; cbn; lia).
      destruct (IH (rs ++ [bs]) (map fst (map upd (seq 0 L)))) as (rs' & sF & A1 & A2 & A3 & A4 & A5 & A6).
      * now rewrite !map_length, seq_length.
      * intros i Hi. rewrite map_map. rewrite (nth_indep _ _ (fst (upd 0%nat))) by (rewrite map_length, seq_length; exact Hi).
        rewrite (map_nth (fun i => fst (upd i))), seq_nth by exact Hi. cbn [plus].
        destruct (HB i Hi) as (_ & [(_ & _ & U3 & U4)|(_ & U2 & U3)]).
        -- apply U4. unfold bs. now rewrite U3.
        -- rewrite U3. apply linv_skip; [now apply I|]. unfold bs. now rewrite U2.
      * intros j Hj. rewrite Lb in Hj. destruct (Nat.eq_dec j k) as [->|Ne].
        -- rewrite app_nth2, Nat.sub_diag by (unfold k; lia). cbn [nth]. split; [apply round_prefix; [unfold k; lia|exact RN]|].
           exists i0. split; [lia|]. unfold bs. rewrite Ep. destruct (HB i0 ltac:(lia)) as (_ & [(U1 & _)|(_ & U2 & _)]); [exact U1|congruence].
        -- rewrite app_nth1 by (fold k; lia). destruct (RF j ltac:(fold k; lia)) as (R1 & R2). split; [apply round_prefix; [fold k; lia|exact R1]|exact R2].
      * exists (bs :: rs'), sF. cbv zeta in *. rewrite <- app_assoc in *. cbn [app] in *. rewrite Lb in *.
        replace (k + S f)%nat with (S k + f)%nat by lia. split; [exact A1|]. split; [exact A2|]. split; [exact A3|]. split; [exact A4|]. split; [exact A5|exact A6].
    + exists [], (map fitted (map fst (map upd (seq 0 L)))). cbv zeta. rewrite app_nil_r. fold k.
      assert (No : forall i, (i < L)%nat -> snd (upd i) = false).
      { intros i Hi. apply (proj1 (existsb_false _ _) Ch). apply in_map. apply in_seq. lia. }
      split; [reflexivity|]. split; [now rewrite !map_length, seq_length|]. split; [exact RF|]. split; [lia|]. split.
      * right. intros i Hi. destruct (RN i Hi) as (b & D & U). exists b. split; [exact D|]. unfold bs in U. rewrite (No i Hi) in U. exact U.
      * intros i Hi. exists (nth i ss (start Xl yl)). split; [now apply I|]. right. split; [|lia].
        rewrite !map_map. rewrite (nth_indep _ _ (fitted (fst (upd 0%nat)))) by (rewrite map_length, seq_length; exact Hi).
        rewrite (map_nth (fun i => fitted (fst (upd i)))), seq_nth by exact Hi. cbn [plus].
        destruct (HB i Hi) as (_ & [(_ & _ & U3 & _)|(_ & _ & U3)]); [rewrite (No i Hi) in U3; discriminate|]. now rewrite U3.
Qed.

Lemma demo_fit_spec max_iter : (3 <= L)%nat -> Xl <> [] -> Xu <> [] ->
  exists fits rs, demo_fit d L fit predict classes_ lower middle max_iter Xl yl Xu = Ok fits /\
    demo_history d L fit predict lower middle Xl yl Xu rs (Z.to_nat max_iter) fits.
Proof.
  intros HL NX NU. unfold demo_fit. destruct (Nat.ltb_spec L 3); [lia|]. destruct Xl as [|x0 xr] eqn:EX; [congruence|]. rewrite <- EX in *.
  set (ss0 := map (fun _ => start Xl yl) (seq 0 L)).
  destruct (demo_loop_spec (Z.to_nat max_iter) [] ss0) as (rs & sF & A1 & A2 & A3 & A4 & A5 & A6).
  - unfold ss0. now rewrite map_length, seq_length.
  - intros i Hi. unfold ss0.
    assert (G : forall (l : list nat) i, nth i (map (fun _ => start Xl yl) l) (start Xl yl) = start Xl yl).
    { induction l as [|a l IHl]; intros [|j]; cbn; auto. }
    rewrite G. apply linv_start.
  - intros k Hk. cbn in Hk. lia.
  - cbv zeta in *. cbn [app length plus] in *.
    exists (map l_calls sF), rs. split.
    + destruct Xu as [|u0 ur] eqn:EU; [congruence|]. rewrite <- EU in *. rewrite A1. cbn [bind].
      rewrite (resolve_classes_same _ (uniqueZ yl)); [reflexivity| |].
      * destruct sF; [cbn in A2; lia|]. destruct L; [lia|]. discriminate.
      * intros m Hm. apply in_map_iff in Hm. destruct Hm as ((i & s) & <- & Hm). cbn [fst snd]. rewrite classes_of_fit. f_equal.
        rewrite <- A2, (combine_seq_map sF (start Xl yl)) in Hm. apply in_map_iff in Hm. destruct Hm as (j & Ej & Hj). injection Ej as -> <-.
        apply in_seq in Hj. destruct (A6 i ltac:(lia)) as (s & Is & [E|[E _]]); rewrite E; cbn [fitted l_y]; apply (linv_labels _ _ _ Is).
    + split; [now rewrite map_length|]. split; [|split; [exact A3|exact A5]].
      intros i Hi. destruct (A6 i Hi) as (s & Is & Hs). apply (linv_moves rs i s); [exact Is|exact A4|].
      rewrite (nth_indep _ [] (l_calls (start Xl yl))) by (rewrite map_length; lia). rewrite (map_nth l_calls).
      destruct Hs as [E|[E Hlt]]; rewrite E; [left; reflexivity|right; auto].
Qed.
End DemoLoop.

(* ----- combined predictions ----- *)
Lemma considered_iff weights mc i : (i < length weights)%nat ->
  ((if existsb (Qlt_bool mc) weights then Qlt_bool mc else fun _ => true) (nth i weights 0%Q) = true <-> considered weights mc i).
Proof.
  intros Hi. unfold considered. destruct (existsb (Qlt_bool mc) weights) eqn:E.
  - rewrite Qlt_bool_iff. split; [intros H; auto|]. intros (_ & [H|H]); [exact H|exfalso].
    apply existsb_exists in E. destruct E as (w & Hw & E). apply Qlt_bool_iff in E. apply (In_nth _ _ 0%Q) in Hw. destruct Hw as (j & Lj & Ej).
    specialize (H j Lj). rewrite Ej in H. lra.
  - split; [|reflexivity]. intros _. split; [exact Hi|]. right. intros j Hj.
    pose proof (proj1 (existsb_false _ _) E (nth j weights 0%Q) (nth_In _ _ Hj)) as H.
    apply Qnot_lt_le. intros Hlt. apply Qlt_bool_iff in Hlt. congruence.
Qed.

Lemma combined_score cs weights mc preds n r c : NoDup cs -> length preds = length weights ->
  (forall p, In p preds -> length p = n /\ forall l, In l p -> In l cs) -> (r < n)%nat -> (c < length cs)%nat ->
  class_score weights mc preds r (nth c cs 0) (combined (map (enc cs) preds) weights mc r c).
Proof.
  intros N Lp H Hr Hc.
  set (el := if existsb (Qlt_bool mc) weights then Qlt_bool mc else fun _ => true).
  set (vs := filter (fun i => el (nth i weights 0%Q) && Nat.eqb (nth r (enc cs (nth i preds [])) 0%nat) c) (seq 0 (length weights))).
  assert (Ec : combine (map (enc cs) preds) weights = map (fun i => (enc cs (nth i preds []), nth i weights 0%Q)) (seq 0 (length weights))).
  { rewrite <- (map_nth_seq preds []) at 1. rewrite <- (map_nth_seq weights 0%Q) at 1. rewrite Lp, map_map. apply combine_map_map. }
  assert (Ev : filter (fun p : list nat * Q => el (snd p) && Nat.eqb (nth r (fst p) 0%nat) c) (combine (map (enc cs) preds) weights) =
     map (fun i => (enc cs (nth i preds []), nth i weights 0%Q)) vs).
  { rewrite Ec. unfold vs. generalize (seq 0 (length weights)). induction l as [|i l IH]; cbn [map filter]; [reflexivity|].
    cbn [fst snd]. destruct (el (nth i weights 0%Q) && Nat.eqb (nth r (enc cs (nth i preds [])) 0%nat) c); cbn [map]; [f_equal|]; exact IH. }
  exists vs. split.
  - split; [unfold vs; apply StronglySorted_filter, seq_sorted|]. intros i. unfold vs. rewrite filter_In, in_seq, andb_true_iff, Nat.eqb_eq.
    assert (G : (i < length weights)%nat -> (el (nth i weights 0%Q) = true <-> considered weights mc i) /\
       (nth r (enc cs (nth i preds [])) 0%nat = c <-> nth r (nth i preds []) 0 = nth c cs 0)).
    { intros Hi. split; [now apply considered_iff|]. destruct (H (nth i preds []) ltac:(apply nth_In; lia)) as [L1 L2].
      apply enc_iff; auto. lia. }
    split.
    + intros (Hi & H1 & H2). destruct (G ltac:(lia)) as [G1 G2]. split; [now apply G1|now apply G2].
    + intros (H1 & H2). assert (Hi : (i < length weights)%nat) by apply H1. destruct (G Hi) as [G1 G2]. split; [lia|]. split; [now apply G1|now apply G2].
  - unfold combined. fold el. rewrite Ev. cbv zeta. rewrite map_map. cbn [snd]. unfold lenZ. rewrite map_length.
    destruct vs as [|v0 vr] eqn:E; [left; split; reflexivity|]. right. split; [discriminate|]. cbn [map]. reflexivity.
Qed.

Lemma class_score_nonneg weights mc preds r c q : (forall w, In w weights -> (0 <= w)%Q) -> class_score weights mc preds r c q -> (0 <= q)%Q.
Proof.
  intros W (vs & (_ & V) & [(-> & ->)|(NE & ->)]); [lra|].
  assert (K : (0 < inject_Z (Z.of_nat (length vs)))%Q).
  { change 0%Q with (inject_Z 0). rewrite <- Zlt_Qlt. destruct vs; [congruence|cbn; lia]. }
  assert (T : (0 <= total (map (fun i => nth i weights 0%Q) vs))%Q).
  { apply Qsum_nonneg. intros x Hx. apply in_map_iff in Hx. destruct Hx as (i & <- & Hi). apply W, nth_In. apply (proj1 (V i) Hi). }
  set (k := inject_Z (Z.of_nat (length vs))) in *. set (t := total _) in *. clearbody k t.
  apply Qmult_le_0_compat.
  - apply Qle_shift_div_l; lra.
  - apply Qle_shift_div_l; lra.
Qed.

Section Combined.
Variables (cs : list Z) (weights : list Q) (mc : Q) (n : nat) (preds : list (list Z)).
Hypothesis cs_distinct : NoDup cs.
Hypothesis cs_some : cs <> [].
Hypothesis one_weight_each : length preds = length weights.
Hypothesis known : forall p, In p preds -> length p = n /\ forall l, In l p -> In l cs.
Hypothesis weights_nonneg : forall w, In w weights -> (0 <= w)%Q.

Let row r := map (combined (map (enc cs) preds) weights mc r) (seq 0 (length cs)).

Lemma row_scores r : (r < n)%nat -> length (row r) = length cs /\
  forall g, (g < length cs)%nat -> class_score weights mc preds r (nth g cs 0) (nth g (row r) 0%Q).
Proof.
  intros Hr. unfold row. split; [now rewrite map_length, seq_length|]. intros g Hg.
  rewrite nth_map_seq_Q by exact Hg. now apply combined_score with (n := n).
Qed.

Lemma row_nonneg r : (r < n)%nat -> forall x, In x (row r) -> (0 <= x)%Q.
Proof.
  intros Hr x Hx. destruct (row_scores r Hr) as [L H]. apply (In_nth _ _ 0%Q) in Hx. destruct Hx as (g & Lg & <-).
  apply (class_score_nonneg _ _ _ _ _ _ weights_nonneg (H g ltac:(lia))).
Qed.

Lemma demo_proba_ok : exists P, demo_proba cs weights mc n preds = Ok P /\ P = map (fun r => normalise_row (row r)) (seq 0 n).
Proof.
  unfold demo_proba. rewrite (encode_all_spec cs preds).
  - cbn [bind]. eexists. split; reflexivity.
  - intros p Hp l Hl. now apply (proj2 (known p Hp)).
Qed.

Lemma Qzero_sum l : (forall x, In x l -> (0 <= x)%Q) -> (total l == 0)%Q -> forall c, (nth c l 0 == 0)%Q.
Proof.
  induction l as [|x l IH]; intros H T c; [destruct c; reflexivity|].
  assert (0 <= total l)%Q by (apply Qsum_nonneg; intros y Hy; apply H; now right).
  assert (Hx : (0 <= x)%Q) by (apply H; now left). unfold total in T. cbn [fold_right] in T. fold (total l) in T.
  destruct c; cbn [nth]; [lra|]. apply IH; [intros y Hy; apply H; now right|lra].
Qed.

Lemma normalise_zero l : (total l == 0)%Q -> normalise_row l = l.
Proof.
  intros T. unfold normalise_row. change (Qsum l) with (total l). destruct (Qeq_bool (total l) 0) eqn:E; [reflexivity|].
  apply Qeq_bool_iff in T. congruence.
Qed.

Lemma demo_proba_spec : exists P, demo_proba cs weights mc n preds = Ok P /\ length P = n /\
  forall r, (r < n)%nat -> exists s, length s = length cs /\
    (forall g, (g < length cs)%nat -> class_score weights mc preds r (nth g cs 0) (nth g s 0%Q)) /\
    ((0 < total s)%Q /\ distribution_of s (nth r P []) \/ (forall g, (nth g s 0 == 0)%Q) /\ nth r P [] = s).
Proof.
  destruct demo_proba_ok as (P & E & ->). eexists. split; [exact E|]. split; [now rewrite map_length, seq_length|].
  intros r Hr. exists (row r). destruct (row_scores r Hr) as [L H]. split; [exact L|]. split; [exact H|].
  rewrite (nth_indep _ [] (normalise_row (row 0%nat))) by (rewrite map_length, seq_length; exact Hr).
  rewrite (map_nth (fun r => normalise_row (row r))), seq_nth by exact Hr. cbn [plus].
  pose proof (row_nonneg r Hr) as NN. assert (0 <= total (row r))%Q by (apply Qsum_nonneg; exact NN).
  destruct (Qlt_le_dec 0 (total (row r))) as [P|P].
  - left. split; [exact P|]. now apply normalise_distribution.
  - right. assert (T : (total (row r) == 0)%Q) by lra. split; [now apply Qzero_sum|now apply normalise_zero].
Qed.

Lemma normalise_predicts r c : (forall x, In x r -> (0 <= x)%Q) -> (predicts (normalise_row r) c <-> predicts r c).
Proof.
  intros NN. assert (0 <= total r)%Q by (apply Qsum_nonneg; exact NN). destruct (Qlt_le_dec 0 (total r)) as [P|P].
  - apply distribution_predicts; [exact P|]. now apply normalise_distribution.
  - rewrite normalise_zero by lra. reflexivity.
Qed.

Lemma demo_predict_spec : exists Y, demo_predict cs weights mc n preds = Ok Y /\ length Y = n /\
  forall r, (r < n)%nat -> exists s g, length s = length cs /\
    (forall g, (g < length cs)%nat -> class_score weights mc preds r (nth g cs 0) (nth g s 0%Q)) /\
    predicts s g /\ nth r Y 0 = nth g cs 0.
Proof.
  destruct demo_proba_ok as (P & E & EP). unfold demo_predict. rewrite E. cbn [bind].
  assert (A : forall r, (r < n)%nat -> predicts (row r) (argmax (normalise_row (row r)))).
  { intros r Hr. apply normalise_predicts; [now apply row_nonneg|]. apply argmax_predicts. intros Z0.
    assert (L0 : length (normalise_row (row r)) = 0%nat) by now rewrite Z0. destruct (row_scores r Hr) as [L _].
    unfold normalise_row in L0. apply cs_some. apply length_zero_iff_nil. rewrite <- L.
    destruct (Qeq_bool (Qsum (row r)) 0); [exact L0|]. now rewrite map_length in L0. }
  exists (map (fun r => nth (argmax (normalise_row (row r))) cs 0) (seq 0 n)). split.
  - rewrite look_up_ok.
    + rewrite EP, !map_map. reflexivity.
    + intros i Hi. rewrite EP, map_map in Hi. apply in_map_iff in Hi. destruct Hi as (r & <- & Hr). apply in_seq in Hr.
      destruct (A r ltac:(lia)) as (B & _). destruct (row_scores r ltac:(lia)) as [L _]. now rewrite L in B.
  - split; [now rewrite map_length, seq_length|]. intros r Hr. destruct (row_scores r Hr) as [L H].
    exists (row r), (argmax (normalise_row (row r))). split; [exact L|]. split; [exact H|]. split; [now apply A|].
    rewrite (nth_indep _ 0 (nth (argmax (normalise_row (row 0%nat))) cs 0)) by (rewrite map_length, seq_length; exact Hr).
    rewrite (map_nth (fun r => nth (argmax (normalise_row (row r))) cs 0)), seq_nth by exact Hr. reflexivity.
Qed.

(* when every considered learner says c and one of them has a positive weight, c is predicted *)
Lemma demo_unanimous r c : (r < n)%nat -> (forall i, considered weights mc i -> nth r (nth i preds []) 0 = c) ->
  (exists i, considered weights mc i /\ (0 < nth i weights 0)%Q) ->
  exists Y, demo_predict cs weights mc n preds = Ok Y /\ nth r Y 0 = c.
Proof.
  intros Hr U (i0 & C0 & P0). destruct demo_predict_spec as (Y & E & LY & H). exists Y. split; [exact E|].
  destruct (H r Hr) as (s & g & Ls & CS & (Hg & Mx & _) & ->). rewrite Ls in *.
  destruct (Z.eq_dec (nth g cs 0) c) as [Eg|Ne]; [exact Eg|exfalso].
  assert (Zg : (nth g s 0 == 0)%Q).
  { destruct (CS g Hg) as (vs & (_ & V) & [(-> & ->)|(NE & _)]); [reflexivity|]. exfalso. destruct vs as [|v vs]; [congruence|].
    destruct (proj1 (V v) (or_introl eq_refl)) as [Cv Sv]. rewrite (U v Cv) in Sv. congruence. }
  assert (Inc : In c cs).
  { rewrite <- (U i0 C0). assert (L0 : (i0 < length preds)%nat) by (rewrite one_weight_each; apply C0).
    destruct (known (nth i0 preds []) (nth_In _ _ L0)) as [K1 K2]. apply K2, nth_In. lia. }
  apply (In_nth _ _ 0) in Inc. destruct Inc as (j & Lj & Ej). specialize (Mx j Lj).
  destruct (CS j Lj) as (vs & (So & V) & S).
  assert (I0 : In i0 vs) by (apply V; split; [exact C0|rewrite Ej; now apply U]).
  destruct S as [(-> & _)|(NE & S)]; [contradiction|]. rewrite S in Mx.
  assert (K : (0 < inject_Z (Z.of_nat (length vs)))%Q).
  { change 0%Q with (inject_Z 0). rewrite <- Zlt_Qlt. destruct vs; [congruence|cbn; lia]. }
  assert (T : (0 < total (map (fun i => nth i weights 0%Q) vs))%Q).
  { assert (G : forall l, (forall i, In i l -> (0 <= nth i weights 0)%Q) -> In i0 l -> (0 < total (map (fun i => nth i weights 0%Q) l))%Q).
    { induction l as [|a l IH]; intros W; [contradiction|]. intros [->|I].
      - cbn. assert (0 <= total (map (fun i => nth i weights 0%Q) l))%Q.
        { apply Qsum_nonneg. intros x Hx. apply in_map_iff in Hx. destruct Hx as (i & <- & Hi). apply W. now right. }
        unfold total in *. lra.
      - specialize (IH (fun i Hi => W i (or_intror Hi)) I). pose proof (W a (or_introl eq_refl)). unfold total in *. cbn. lra. }
    apply G; [|exact I0]. intros i Hi. apply weights_nonneg, nth_In. apply (proj1 (V i) Hi). }
  set (k := inject_Z (Z.of_nat (length vs))) in *. set (t := total _) in *. clearbody k t. rewrite Zg in Mx.
  assert (A1 : (0 < t / k)%Q) by (apply Qlt_shift_div_l; lra).
  assert (A2 : (0 < (k + (1 # 2)) / (k + 1))%Q) by (apply Qlt_shift_div_l; lra).
  assert (A3 : (0 < t / k * ((k + (1 # 2)) / (k + 1)))%Q).
  { rewrite <- (Qmult_0_l ((k + (1 # 2)) / (k + 1))). apply Qmult_lt_compat_r; assumption. }
  lra.
Qed.
End Combined.
