From Coq Require Import QArith Qminmax Qround Permutation Sorted Lqa Lia ZifyBool ZifyNat.
From Verif Require Import Prelude QFacts ListFacts DeepBatchModel DeepBatchSpec DeepBatchProofs DeepLossModel DeepLossSpec DeepLossProofs DeepThreshModel DeepThreshSpec DeepThreshProofs DeepEmaModel DeepEmaSpec DeepEmaProofs CoMatchSpec CoMatchProofs TriNetModel TriNetSpec.
Local Open Scope Z_scope.
Local Open Scope Q_scope.
Local Open Scope list_scope.

(* ------------------------------------------------------------------ batches *)
Lemma cut_range {A} (xs : list A) b : (0 < b)%Z ->
  exists starts, py_range (lenZ xs) b = Ok starts /\ (forall B (l : list B), length l = length xs -> cut b l (map (fun st => slice l st b) starts)) /\ (forall st, In st starts -> (0 <= st)%Z).
Proof.
  intros Hb. destruct xs as [|x xs].
  - unfold py_range. rewrite (proj2 (Z.eqb_neq b 0)), (proj2 (Z.ltb_ge b 0)) by lia. unfold lenZ. cbn [length Z.of_nat].
    rewrite Z.div_small by lia. eexists. split; [reflexivity|]. split; [intros B l L; destruct l; [split; [reflexivity|intros l []]|discriminate L]|intros st []].
  - set (l := x :: xs). assert (P : (0 < lenZ l)%Z) by (unfold lenZ, l; cbn [length]; lia).
    rewrite (py_range_ok _ _ P Hb). eexists. split; [reflexivity|]. split; [|intros st I; apply in_map_iff in I; destruct I as (j & <- & _); nia].
    intros B l' L. assert (LZ : lenZ l' = lenZ l) by (unfold lenZ; now rewrite L). assert (NE : l' <> []) by (intros ->; cbn in L; discriminate L).
    rewrite <- LZ. split.
    + exact (pass_all b l' Hb NE).
    + intros r I. destruct (pass_In _ _ _ _ I) as (j & J & ->).
      pose proof (num_batches_enough (lenZ l') b ltac:(lia) Hb) as E. unfold just_enough in E. unfold slice.
      assert (LS : length (skipn (Z.to_nat (Z.of_nat j * b)) l') = (length l' - Z.to_nat (Z.of_nat j * b))%nat) by apply skipn_length.
      assert (PJ : (Z.to_nat (Z.of_nat j * b) < length l')%nat) by (unfold lenZ in *; nia).
      split.
      * intros Z. apply (f_equal (@length B)) in Z. rewrite firstn_length, LS in Z. cbn [length] in Z. lia.
      * unfold lenZ. rewrite firstn_length. lia.
Qed.
Lemma slice_map {A B} (f : A -> B) l st b : slice (map f l) st b = map f (slice l st b).
Proof. unfold slice. now rewrite skipn_map, firstn_map. Qed.
Lemma slice_seq n st b : (0 <= st)%Z -> slice (seq 0 n) st b = seq (Z.to_nat st) (Nat.min (Z.to_nat b) (n - Z.to_nat st)).
Proof.
  intros P. unfold slice.
  assert (SK : forall s a m, skipn s (seq a m) = seq (a + s) (m - s)).
  { induction s as [|s IH]; intros a m; [now rewrite Nat.add_0_r, Nat.sub_0_r|]. destruct m as [|m]; [reflexivity|]. cbn [seq skipn]. rewrite IH. f_equal; lia. }
  assert (FS : forall s a m, firstn s (seq a m) = seq a (Nat.min s m)).
  { induction s as [|s IH]; intros a m; [reflexivity|]. destruct m as [|m]; [reflexivity|]. cbn [seq firstn Nat.min]. now rewrite IH. }
  now rewrite SK, FS, Nat.add_0_l.
Qed.

Lemma list_eq_dec_nil {A} (l : list A) : l = [] \/ l <> [].
Proof. destruct l; [now left|now right]. Qed.
(* ------------------------------------------------------------------ one-hot and smearing *)
Lemma one_hot_rows_spec k labels :
  match one_hot_rows k labels with
  | Ok r => r = map (indicator k) labels /\ (forall c, In c labels -> (0 <= c < Z.of_nat k)%Z)
  | Err e => e = RuntimeError /\ exists c, In c labels /\ ~ (0 <= c < Z.of_nat k)%Z
  end.
Proof.
  unfold one_hot_rows. destruct (existsb _ labels) eqn:E.
  - split; [reflexivity|]. apply existsb_exists in E. destruct E as (c & I & H). exists c. split; [exact I|lia].
  - split; [reflexivity|]. intros c I. destruct (Z_lt_dec c 0) as [|]; [|destruct (Z_lt_dec c (Z.of_nat k)); [lia|]].
    + exfalso. assert (X : existsb (fun c => (c <? 0)%Z || (Z.of_nat k <=? c)%Z) labels = true) by (apply existsb_exists; exists c; split; [exact I|lia]). congruence.
    + exfalso. assert (X : existsb (fun c => (c <? 0)%Z || (Z.of_nat k <=? c)%Z) labels = true) by (apply existsb_exists; exists c; split; [exact I|lia]). congruence.
Qed.
Lemma smear_spec k std noise labels : 0 <= std -> table (length labels) k noise -> (forall c, In c labels -> (0 <= c < Z.of_nat k)%Z) ->
  exists targets, smear k std noise labels = Ok targets /\ length targets = length labels /\ (forall t, In t targets -> length t = k) /\
    forall r, (r < length labels)%nat -> smeared k std (nth r noise []) (nth r labels 0%Z) (nth r targets []).
Proof.
  intros P T IN. unfold smear. pose proof (one_hot_rows_spec k labels) as OH. destruct (one_hot_rows k labels) as [hot|e]; [|destruct OH as (_ & c & I & H); exfalso; apply H, IN, I].
  destruct OH as [-> _]. cbn [bind]. destruct (Qle_bool std 0) eqn:E.
  - apply Qle_bool_iff in E. eexists. split; [reflexivity|]. split; [apply map_length|]. split; [intros t I; apply in_map_iff in I; destruct I as (c & <- & _); apply one_hot_length|].
    intros r R. rewrite (nth_map _ _ r 0%Z) by exact R. split; [apply one_hot_length|].
    cbn zeta. intros j J. assert (B0 : forall j, Qmax 0 (std * nth j (nth r noise []) 0) == 0).
    { intros i. assert (std == 0) by (apply Qle_antisym; assumption). rewrite H. rewrite Qmult_0_l. apply Q.max_id. }
    rewrite (Qsum_ext _ (fun _ => 0)) by (intros; apply B0). rewrite B0, Qsum_zero by reflexivity. ring.
  - eexists. split; [reflexivity|]. split; [rewrite zipw_length; [apply map_length|rewrite map_length; symmetry; apply T]|].
    assert (EQ : forall r, (r < length labels)%nat -> length (nth r noise []) = k) by (intros r R; apply T, nth_In; now rewrite (proj1 T)).
    rewrite (zipw_seq _ _ _ [] []) by (rewrite map_length; symmetry; apply T). rewrite map_length. split.
    { intros t I. apply in_map_iff in I. destruct I as (r & <- & I). apply in_seq in I. rewrite map_length, zipw_length; rewrite (nth_map _ _ r 0%Z) by lia; [apply one_hot_length|]. rewrite EQ by lia. apply one_hot_length. }
    intros r R. rewrite (nth_map _ _ r 0%nat) by (rewrite seq_length; exact R). rewrite seq_nth by exact R. cbn [Nat.add]. cbn zeta.
    rewrite (nth_map _ _ r 0%Z) by exact R. set (c := nth r labels 0%Z). set (z := nth r noise []).
    assert (CK : (0 <= c < Z.of_nat k)%Z) by (apply IN, nth_In, R). assert (LZ : length z = k) by (apply EQ, R).
    rewrite (zipw_seq _ _ _ 0 0) by (now rewrite one_hot_length). change (length (indicator k c)) with (length (one_hot k c)). rewrite one_hot_length.
    assert (BE : forall j, Qmax (nth j z 0 * std) 0 == Qmax 0 (std * nth j z 0)) by (intros j; rewrite Q.max_comm, (Qmult_comm std); reflexivity).
    assert (SUM : Qsum (map (fun i => nth i (indicator k c) 0 + Qmax (nth i z 0 * std) 0) (seq 0 k)) == 1 + Qsum (map (fun j => Qmax 0 (std * nth j z 0)) (seq 0 k))).
    { rewrite Qsum_plus. assert (S1 : Qsum (map (fun i => nth i (indicator k c) 0) (seq 0 k)) == 1).
      { pose proof (nth_seq 0 (indicator k c)) as NS. change (length (indicator k c)) with (length (one_hot k c)) in NS. rewrite one_hot_length in NS. rewrite NS. now apply one_hot_sum. }
      rewrite S1. apply Qplus_comp; [reflexivity|]. apply Qsum_ext. intros; apply BE. }
    assert (GE : 0 <= Qsum (map (fun j => Qmax 0 (std * nth j z 0)) (seq 0 k))) by (apply Qsum_nonneg; intros x I; apply in_map_iff in I; destruct I as (j & <- & _); apply Q.le_max_l).
    split; [now rewrite !map_length, seq_length|]. cbn zeta. intros j J.
    rewrite (nth_map _ _ j 0) by (rewrite map_length, seq_length; exact J). rewrite (nth_map _ _ j 0%nat) by (rewrite seq_length; exact J). rewrite seq_nth by exact J. cbn [Nat.add].
    match goal with |- context [Qmax ?a tiny] => assert (MX : Qmax a tiny == a) by (apply Q.max_l; rewrite SUM; unfold tiny; lra) end.
    rewrite MX, SUM, BE. field. lra.
Qed.
Lemma smeared_distribution k std noise c target : (0 <= c < Z.of_nat k)%Z -> smeared k std noise c target -> distribution target.
Proof.
  intros CK [L H]. cbv zeta beta in H. set (tot := 1 + Qsum (map (fun j => Qmax 0 (std * nth j noise 0)) (seq 0 k))) in *.
  assert (GE : 0 <= Qsum (map (fun j => Qmax 0 (std * nth j noise 0)) (seq 0 k))) by (apply Qsum_nonneg; intros x I; apply in_map_iff in I; destruct I as (j & <- & _); apply Q.le_max_l).
  assert (TP : 0 < tot) by (unfold tot; lra).
  apply (distribution_nth k); [exact L|]. split.
  - intros j J. specialize (H j J). destruct (Qlt_le_dec (nth j target 0) 0) as [N|]; [|assumption]. exfalso.
    assert (nth j target 0 * tot < 0) by nra. pose proof (Q.le_max_l 0 (std * nth j noise 0)).
    assert (0 <= nth j (indicator k c) 0) by (change (indicator k c) with (one_hot k c); rewrite one_hot_nth by exact J; destruct (_ =? _)%Z; lra). lra.
  - assert (E : Qsum (map (fun j => nth j target 0) (seq 0 k)) * tot == 1 * tot).
    { rewrite <- Qsum_scale_r. rewrite (Qsum_ext _ (fun j => nth j (indicator k c) 0 + Qmax 0 (std * nth j noise 0))).
      - rewrite Qsum_plus. assert (S1 : Qsum (map (fun i => nth i (indicator k c) 0) (seq 0 k)) == 1).
        { pose proof (nth_seq 0 (indicator k c)) as NS. change (length (indicator k c)) with (length (one_hot k c)) in NS. rewrite one_hot_length in NS. rewrite NS. now apply one_hot_sum. }
        rewrite S1. unfold tot. ring.
      - intros j J. apply in_seq in J. apply H. lia. }
    apply Qmult_inj_r in E; [exact E|]. intros Z. lra.
Qed.

(* ------------------------------------------------------------------ selection *)
Lemma select_seq {A} (g : nat -> bool) (l : list A) d : select (map g (seq 0 (length l))) l = map (fun r => nth r l d) (filter g (seq 0 (length l))).
Proof.
  unfold select. assert (E : combine (map g (seq 0 (length l))) l = map (fun r => (g r, nth r l d)) (seq 0 (length l))).
  { transitivity (combine (map g (seq 0 (length l))) (map (fun r => nth r l d) (seq 0 (length l)))); [now rewrite nth_seq|]. generalize (seq 0 (length l)). induction l0 as [|r q IH]; [reflexivity|]. cbn. now rewrite IH. }
  rewrite E. generalize (seq 0 (length l)). induction l0 as [|r q IH]; [reflexivity|]. cbn [map filter fst]. destruct (g r); cbn [map snd]; now rewrite IH.
Qed.
Lemma floor_le c q : (c <=? Qfloor q)%Z = Qle_bool (inject_Z c) q.
Proof.
  apply Bool.eq_iff_eq_true. rewrite Z.leb_le, Qle_bool_iff. split; intros H.
  - apply Qle_trans with (inject_Z (Qfloor q)); [now rewrite <- Zle_Qle|apply Qfloor_le].
  - pose proof (Qfloor_resp_le _ _ H) as F. now rewrite Qfloor_Z in F.
Qed.

(* ------------------------------------------------------------------ pseudo-labels *)
Section Labels.
Context {X M : Type}.
Variable softmax : list Q -> list Q.
Variable argmax : list Q -> Z.
Variable dx : X.
Variable score : M -> nat -> X -> list Q.
Variable noisy : M -> nat -> nat -> list X -> (list (list Q) * list (list Q)) * M.
Variable head_width : nat -> nat.
Variable cfg : config.
Hypothesis SM : softmax_ok softmax.
Hypothesis NK : nets_ok head_width score noisy.
Hypothesis BP : (0 < batch cfg)%Z.

Lemma noisy_pass_spec j h xs b starts : forall m,
  match noisy_pass softmax argmax noisy m j h xs b starts with
  | Ok (p, m') => said_pass softmax argmax noisy j h m (map (fun st => slice xs st b) starts) p m' /\ length p = length (concat (map (fun st => slice xs st b) starts))
  | Err e => e = InductiveValidationError /\ head_width j <> head_width h
  end.
Proof using All.
  induction starts as [|st starts IH]; intros m; cbn [noisy_pass map concat]; [split; [constructor|reflexivity]|].
  pose proof (proj2 NK m j h (slice xs st b)) as [TJ TH]. destruct (noisy m j h (slice xs st b)) as [[lj lh] m1] eqn:EN. cbn [fst snd] in TJ, TH.
  set (bt := slice xs st b) in *.
  assert (W : forall l w, table (length bt) w l -> bt <> [] -> width l = w).
  { intros l w [L A] NE. destruct l as [|r l]; [destruct bt; [easy|discriminate L]|]. cbn. apply A. now left. }
  assert (SH : same_shape lj lh = true \/ head_width j <> head_width h).
  { unfold same_shape. rewrite (proj1 TJ), (proj1 TH), Nat.eqb_refl. cbn [andb]. destruct (list_eq_dec_nil bt) as [E|E].
    - left. destruct TJ as [LJ _], TH as [LH _]. rewrite E in LJ, LH. destruct lj; [|discriminate LJ]. destruct lh; [|discriminate LH]. reflexivity.
    - rewrite (W _ _ TJ E), (W _ _ TH E). destruct (Nat.eqb_spec (head_width j) (head_width h)); [now left|now right]. }
  destruct (same_shape lj lh) eqn:SS; cbn [negb]; [|destruct SH as [?|NE]; [discriminate|now split]].
  specialize (IH m1). destruct (noisy_pass softmax argmax noisy m1 j h xs b starts) as [[p m2]|e]; cbn [bind]; [|exact IH]. destruct IH as [IH LP].
  assert (EP : zipw (fun p q => argmax (zipw (fun a b => (a + b) / 2) (softmax p) (softmax q))) lj lh =
    map (fun r => argmax (map (fun c => (nth c (softmax (nth r lj [])) 0 + nth c (softmax (nth r lh [])) 0) / 2) (seq 0 (length (nth r lj []))))) (seq 0 (length bt))).
  { rewrite (zipw_seq _ _ _ [] []) by (rewrite (proj1 TJ), (proj1 TH); reflexivity). rewrite (proj1 TJ). apply map_ext_in. intros r I. apply in_seq in I. f_equal.
    assert (NE : bt <> []) by (intros E; rewrite E in I; cbn in I; lia). unfold same_shape in SS. rewrite (W _ _ TJ NE), (W _ _ TH NE) in SS.
    assert (LJ : length (nth r lj []) = head_width j) by (apply TJ, nth_In; rewrite (proj1 TJ); lia).
    assert (LH : length (nth r lh []) = head_width h) by (apply TH, nth_In; rewrite (proj1 TH); lia).
    rewrite (zipw_seq _ _ _ 0 0) by (rewrite !(proj1 (SM _)), LJ, LH; lia). now rewrite (proj1 (SM _)). }
  split.
  - rewrite EP. apply (said_batch softmax argmax noisy j h m bt _ lj lh m1 p m2 EN IH).
  - rewrite EP, !app_length, map_length, seq_length, LP. reflexivity.
Qed.

Lemma noisy_passes_spec j h xs labels starts : length labels = length xs -> py_range (lenZ xs) (batch cfg) = Ok starts ->
  cut (batch cfg) xs (map (fun st => slice xs st (batch cfg)) starts) ->
  forall passes m counts, length counts = length xs ->
  match noisy_passes softmax argmax noisy passes m j h xs labels (batch cfg) counts with
  | Ok (c', m') => exists preds, length preds = passes /\ said_passes softmax argmax noisy j h (map (fun st => slice xs st (batch cfg)) starts) m preds m' /\
      c' = map (fun r => (nth r counts 0 + differs preds r (nth r labels 0))%Z) (seq 0 (length xs))
  | Err e => e = InductiveValidationError /\ head_width j <> head_width h
  end.
Proof using All.
  intros LL PR CU. induction passes as [|p IH]; intros m counts LC; cbn [noisy_passes].
  - exists []. split; [reflexivity|]. split; [constructor|]. rewrite <- LC. transitivity (map (fun r => nth r counts 0%Z) (seq 0 (length counts))); [symmetry; apply nth_seq|].
    apply map_ext. intros r. unfold differs. cbn [filter lenZ length]. unfold lenZ. cbn. lia.
  - rewrite PR. cbn [bind]. pose proof (noisy_pass_spec j h xs (batch cfg) starts m) as NP.
    destruct (noisy_pass softmax argmax noisy m j h xs (batch cfg) starts) as [[pred m1]|e]; cbn [bind]; [|exact NP]. destruct NP as [SP LP].
    rewrite (proj1 CU) in LP.
    assert (EC : zipw (fun c pl => if (fst pl =? snd pl)%Z then c else (c + 1)%Z) counts (combine pred labels) =
                 map (fun r => (if (nth r pred 0 =? nth r labels 0)%Z then nth r counts 0 else nth r counts 0 + 1)%Z) (seq 0 (length xs))).
    { rewrite (zipw_seq _ _ _ 0%Z (0%Z, 0%Z)) by (rewrite combine_length; lia). rewrite LC. apply map_ext. intros r. rewrite combine_nth by lia. reflexivity. }
    rewrite EC. specialize (IH m1 (map (fun r => (if (nth r pred 0 =? nth r labels 0)%Z then nth r counts 0 else nth r counts 0 + 1)%Z) (seq 0 (length xs)))).
    rewrite map_length, seq_length in IH. specialize (IH eq_refl).
    destruct (noisy_passes softmax argmax noisy p m1 j h xs labels (batch cfg) _) as [[c' m2]|e]; [|exact IH]. destruct IH as (preds & LPR & SPS & ->).
    exists (pred :: preds). split; [cbn; lia|]. split; [econstructor; eassumption|]. apply map_ext_in. intros r I. apply in_seq in I.
    rewrite (nth_map _ _ r 0%nat) by (rewrite seq_length; lia). rewrite seq_nth by lia. cbn [Nat.add]. unfold differs. cbn [filter].
    destruct (nth r pred 0 =? nth r labels 0)%Z; cbn [negb]; [reflexivity|]. unfold lenZ. cbn [length]. lia.
Qed.

Lemma dropout_spec pool j h cand m passes : 
  let row := fun p : nat * Z => nth (fst p) pool dx in
  match dropout_filter softmax argmax noisy m j h (map row cand) (map snd cand) passes (drop_fraction cfg) (batch cfg) with
  | Ok (keep, m') => exists kept, filtered softmax argmax dx noisy cfg j h pool passes m cand kept m' /\
      select keep (map row cand) = map row kept /\ select keep (map snd cand) = map snd kept
  | Err e => e = InductiveValidationError /\ head_width j <> head_width h
  end.
Proof using All.
  intros row. unfold dropout_filter.
  assert (ALL : forall A (l : list A), select (repeat true (length l)) l = l) by (intros A l; unfold select; induction l as [|x l IH]; [reflexivity|]; cbn; now rewrite IH).
  destruct ((lenZ (map row cand) =? 0)%Z || (passes <=? 1)%Z) eqn:E0.
  - exists cand. rewrite (ALL _ (map row cand)). split; [|split; [reflexivity|]].
    + split; [now split|]. intros P1. assert (cand = []) as -> by (unfold lenZ in E0; rewrite map_length in E0; destruct cand; [reflexivity|cbn [length] in E0; lia]).
      exists [], (repeat [] (Z.to_nat passes)). split; [split; [reflexivity|intros l []]|]. split; [unfold lenZ; rewrite repeat_length; lia|]. split; [|reflexivity].
      generalize (Z.to_nat passes). induction n as [|n IH]; cbn; [constructor|]. econstructor; [constructor|exact IH].
    + rewrite map_length, <- (map_length snd). apply ALL.
  - apply Bool.orb_false_iff in E0. destruct E0 as [_ P1]. apply Z.leb_gt in P1.
    destruct (cut_range (map row cand) (batch cfg) BP) as (starts & PR & CU & _).
    pose proof (noisy_passes_spec j h (map row cand) (map snd cand) starts) as NP. rewrite !map_length in NP. specialize (NP eq_refl PR (CU _ _ eq_refl) (Z.to_nat passes) m (repeat 0%Z (length cand)) (repeat_length _ _)).
    rewrite map_length. destruct (noisy_passes _ _ _ _ _ _ _ _ _ _ _) as [[counts m']|e]; cbn [bind]; [|exact NP]. destruct NP as (preds & LP & SP & ->).
    exists (stable passes (drop_fraction cfg) preds cand).
    assert (EK : map (fun c => (c <=? Qfloor (inject_Z passes * drop_fraction cfg))%Z) (map (fun r => (nth r (repeat 0 (length cand)) 0 + differs preds r (nth r (map snd cand) 0))%Z) (seq 0 (length cand))) =
                 map (fun r => Qle_bool (inject_Z (differs preds r (snd (nth r cand (0%nat, 0%Z))))) (inject_Z passes * drop_fraction cfg)) (seq 0 (length cand))).
    { rewrite map_map. apply map_ext_in. intros r I. apply in_seq in I. rewrite nth_repeat, floor_le. change 0%Z with (snd (0%nat, 0%Z)) at 2. now rewrite map_nth. }
    rewrite EK. split; [|split].
    + split; [lia|]. intros _. exists (map (fun st => slice (map row cand) st (batch cfg)) starts), preds. split; [now apply CU|]. split; [unfold lenZ; lia|]. split; [exact SP|reflexivity].
    + rewrite <- (map_length row cand). rewrite (select_seq _ _ (row (0%nat, 0%Z))). unfold stable. rewrite map_length, map_map. apply map_ext. intros r. apply map_nth.
    + rewrite <- (map_length snd cand). rewrite (select_seq _ _ (snd (0%nat, 0%Z))). unfold stable. rewrite map_length, map_map. apply map_ext. intros r. apply map_nth.
Qed.

Definition pick (m : M) (j h : nat) (sigma : Q) (pool : list X) (i : nat) : list (nat * Z) :=
  let pj := softmax (score m j (nth i pool dx)) in let ph := softmax (score m h (nth i pool dx)) in
  if (argmax pj =? argmax ph)%Z && Qle_bool sigma ((row_max pj + row_max ph) / 2) then [(i, argmax pj)] else [].
Lemma label_batches_spec m j h pool sigma b starts : (forall st, In st starts -> (0 <= st)%Z) ->
  match label_batches softmax argmax score head_width m j h pool sigma b starts with
  | Ok picked => picked = flat_map (pick m j h sigma pool) (concat (map (fun st => slice (seq 0 (length pool)) st b) starts))
  | Err e => e = InductiveValidationError /\ head_width j <> head_width h
  end.
Proof using All.
  induction starts as [|st starts IH]; intros P; cbn [label_batches map concat]; [reflexivity|].
  destruct (Nat.eqb_spec (head_width j) (head_width h)) as [EW|NE]; cbn [negb]; [|now split].
  specialize (IH ltac:(intros; apply P; now right)). destruct (label_batches _ _ _ _ _ _ _ _ _ _ starts) as [more|e]; cbn [bind]; [|exact IH].
  subst more. rewrite flat_map_app. f_equal. pose proof (P st (or_introl eq_refl)) as P0. rewrite slice_seq by exact P0.
  assert (LS : length (slice pool st b) = Nat.min (Z.to_nat b) (length pool - Z.to_nat st)) by (unfold slice; now rewrite firstn_length, skipn_length).
  rewrite LS. set (n := Nat.min (Z.to_nat b) (length pool - Z.to_nat st)) in *.
  assert (EC : combine (seq 0 n) (slice pool st b) = map (fun i => (i, nth (Z.to_nat st + i)%nat pool dx)) (seq 0 n)).
  { transitivity (combine (map (fun i => i) (seq 0 n)) (map (fun i => nth i (slice pool st b) dx) (seq 0 n))).
    - rewrite map_id. f_equal. rewrite <- LS. symmetry. apply nth_seq.
    - assert (G : forall i, In i (seq 0 n) -> nth i (slice pool st b) dx = nth (Z.to_nat st + i)%nat pool dx).
      { intros i I. apply in_seq in I. unfold slice. rewrite nth_firstn_lt by (unfold n in I; lia). now rewrite nth_skipn. }
      revert G. generalize (seq 0 n). induction l as [|i l IHl]; intros G; [reflexivity|]. cbn [map combine]. rewrite IHl by (intros; apply G; now right). now rewrite (G i) by now left. }
  rewrite EC. replace (seq (Z.to_nat st) n) with (map (fun i => (Z.to_nat st + i)%nat) (seq 0 n)).
  - generalize (seq 0 n). induction l as [|i l IHl]; [reflexivity|]. cbn [map flat_map fst snd]. now rewrite IHl.
  - clear. generalize (Z.to_nat st) as a. intros a. transitivity (seq (a + 0) n); [|f_equal; lia]. generalize 0%nat. induction n as [|n IH]; intros s; [reflexivity|]. cbn [seq map]. rewrite IH. f_equal. f_equal. lia.
Qed.

Lemma label_spec pool m j h sigma : (0 < stability_passes cfg)%Z ->
  let row := fun p : nat * Z => nth (fst p) pool dx in
  match label_unlabeled softmax argmax dx score noisy head_width m j h pool sigma (stability_passes cfg) (drop_fraction cfg) (batch cfg) with
  | Ok (xs, labels, m') => exists picked steady, agreement softmax argmax dx score m j h sigma pool picked /\
      filtered softmax argmax dx noisy cfg j h pool (stability_passes cfg) m picked steady m' /\ xs = map row steady /\ labels = map snd steady
  | Err e => e = InductiveValidationError /\ head_width j <> head_width h
  end.
Proof using All.
  intros SP row. unfold label_unlabeled. destruct (cut_range pool (batch cfg) BP) as (starts & PR & CU & POS). rewrite PR. cbn [bind].
  pose proof (label_batches_spec m j h pool sigma (batch cfg) starts POS) as LB. destruct (label_batches _ _ _ _ _ _ _ _ _ _ starts) as [picked|e]; cbn [bind]; [|exact LB].
  rewrite (proj1 (CU nat (seq 0 (length pool)) (seq_length _ _))) in LB.
  assert (AG : agreement softmax argmax dx score m j h sigma pool picked).
  { subst picked. split.
    - assert (E : forall l, map fst (flat_map (pick m j h sigma pool) l) = filter (fun i => match pick m j h sigma pool i with [] => false | _ => true end) l).
      { induction l as [|i l IHl]; [reflexivity|]. cbn [flat_map filter]. rewrite map_app, IHl. unfold pick. destruct (_ && _); reflexivity. }
      rewrite E. generalize (fun i => match pick m j h sigma pool i with [] => false | _ => true end). intros f. generalize 0%nat (length pool). intros s n. revert s.
      induction n as [|n IH]; intros s; cbn [seq filter]; [constructor|]. destruct (f s); [|apply IH]. constructor; [apply IH|]. apply Forall_forall. intros x I. apply filter_In in I. destruct I as [I _]. apply in_seq in I. lia.
    - intros i c. rewrite in_flat_map. unfold agreed. setoid_rewrite in_seq. split.
      + intros (i' & I & H). unfold pick in H. destruct (_ && _) eqn:E; [|destruct H]. destruct H as [H|[]]. injection H as -> <-. apply Bool.andb_true_iff in E. destruct E as [E1 E2].
        split; [lia|]. split; [reflexivity|]. split; [lia|]. apply Qle_bool_iff in E2. rewrite !top_spec.
        assert (HH : 2 * ((row_max (softmax (score m j (nth i pool dx))) + row_max (softmax (score m h (nth i pool dx)))) / 2) == row_max (softmax (score m j (nth i pool dx))) + row_max (softmax (score m h (nth i pool dx)))) by field. lra.
      + intros (I & A1 & A2 & A3). exists i. split; [lia|]. unfold pick. rewrite A1, A2, Z.eqb_refl. cbn [andb]. rewrite !top_spec in A3.
        rewrite (proj2 (Qle_bool_iff _ _)); [now left|].
        assert (HH : 2 * ((row_max (softmax (score m j (nth i pool dx))) + row_max (softmax (score m h (nth i pool dx)))) / 2) == row_max (softmax (score m j (nth i pool dx))) + row_max (softmax (score m h (nth i pool dx)))) by field. lra. }
  clear LB. cbn zeta. fold row. destruct (Z.ltb_spec 1 (stability_passes cfg)).
  - pose proof (dropout_spec pool j h picked m (stability_passes cfg)) as DS. cbn zeta in DS. fold row in DS.
    destruct (dropout_filter _ _ _ _ _ _ _ _ _ _ _) as [[keep m']|e]; cbn [bind]; [|exact DS]. destruct DS as (kept & F & E1 & E2). exists picked, kept. exact (conj AG (conj F (conj E1 E2))).
  - exists picked, picked. split; [exact AG|]. split; [|now split]. split; [now split|lia].
Qed.
End Labels.

Lemma stable_incl passes fraction preds cand : incl (stable passes fraction preds cand) cand.
Proof.
  intros x I. unfold stable in I. apply in_map_iff in I. destruct I as (r & <- & I). apply filter_In in I. destruct I as [I _]. apply in_seq in I. apply nth_In. lia.
Qed.
Lemma filtered_incl {X M} softmax argmax (dx : X) (noisy : M -> nat -> nat -> list X -> _) cfg j h pool passes m cand kept m' :
  filtered softmax argmax dx noisy cfg j h pool passes m cand kept m' -> incl kept cand.
Proof.
  intros [A B]. destruct (Z_le_gt_dec passes 1) as [L|L]; [destruct (A L) as [-> _]; apply incl_refl|].
  destruct (B ltac:(lia)) as (bs & preds & _ & _ & _ & ->). apply stable_incl.
Qed.

(* ------------------------------------------------------------------ training *)
Lemma cycle_one_pass {St} (G : Gen St) n b s : gen_ok G -> (0 < n)%nat -> (0 < b)%Z ->
  exists idx s1 l, cycle_batch_indices G n b (num_batches (Z.of_nat n) b) s = Ok (idx, s1) /\ concat idx = l /\ Permutation l (seq 0 n) /\
    Forall (proper_batch n b) idx.
Proof.
  intros OK N B. destruct (fresh_ok G OK n b N B s) as (l & s1 & E & P). set (k := num_batches (Z.of_nat n) b) in *.
  pose proof (k_pos n b N B) as K. fold k in K. exists (pass b l (Z.to_nat k)), s1, l.
  assert (LL : lenZ l = Z.of_nat n) by (unfold lenZ; rewrite (Permutation_length P), seq_length; reflexivity).
  split; [|split; [|split; [exact P|]]].
  - unfold cycle_batch_indices. pose proof (pass_length b l (Z.to_nat k)) as PL. destruct (Z.to_nat k) as [|q] eqn:EQ; [lia|]. cbn [cycle]. rewrite E. cbn [bind].
    destruct (pass b l (S q)) as [|i0 rest] eqn:EP; [discriminate PL|]. rewrite (cycle_pending G n b). cbn [length] in PL. rewrite (proj2 (Nat.leb_le _ _)) by lia. cbn [bind]. now rewrite firstn_all2 by lia.
  - unfold k. rewrite <- LL. apply pass_all; [exact B|]. intros ->. unfold lenZ in LL. cbn in LL. lia.
  - exact (pass_proper n b l N B P).
Qed.

Section Train.
Context {St X M : Type}.
Variable G : Gen St.
Variable seeded : Z -> St.
Variable dx : X.
Variable learn : M -> nat -> bool -> list X -> list (list Q) -> M.
Variable head_width : nat -> nat.
Variable cfg : config.
Variable k : nat.
Hypothesis GO : gen_ok G.
Hypothesis BP : (0 < batch cfg)%Z.

Definition doubled (l : list (X * list Q)) : list X * list (list Q) := let l := if Nat.eqb (length l) 1 then l ++ l else l in (map fst l, map snd l).
Lemma learn_batches_spec v shared bs : (forall l, In l bs -> l <> [] /\ forall p, In p l -> length (snd p) = k) -> forall m,
  match learn_batches learn head_width m v shared (map (fun l => (map fst l, map snd l)) bs) with
  | Ok (used, m') => used = map doubled bs /\ m' = fold_left (fun m b => learn m v shared (fst b) (snd b)) used m
  | Err e => e = RuntimeError /\ head_width v <> k
  end.
Proof using.
  induction bs as [|l bs IH]; intros H m; cbn [map learn_batches]; [now split|]. rewrite map_length.
  assert (ED : (if Nat.eqb (length l) 1 then (map fst l ++ map fst l, map snd l ++ map snd l) else (map fst l, map snd l)) = doubled l).
  { unfold doubled. destruct (Nat.eqb (length l) 1); [now rewrite !map_app|reflexivity]. }
  rewrite ED. assert (WD : width (snd (doubled l)) = k).
  { destruct (H l (or_introl eq_refl)) as [NE A]. destruct l as [|p l]; [easy|]. unfold doubled. destruct (Nat.eqb _ 1); cbn; apply A; now left. }
  destruct (doubled l) as [xe ye] eqn:EE. cbn [snd] in WD. rewrite WD.
  destruct (negb _) eqn:EN; [split; [reflexivity|lia]|].
  specialize (IH ltac:(intros; apply H; now right) (learn m v shared xe ye)). destruct (learn_batches _ _ _ _ _ _) as [[used m']|e]; cbn [bind]; [|exact IH].
  destruct IH as [-> ->]. split; reflexivity.
Qed.

Lemma learn_epochs_spec v shared xs targets : xs <> [] -> length targets = length xs -> (forall t, In t targets -> length t = k) -> forall e m s,
  match learn_epochs G dx learn head_width e m v shared xs targets (batch cfg) (num_batches (lenZ xs) (batch cfg)) s with
  | Ok (used, m') => length used = e /\ (forall o, In o used -> one_pass (batch cfg) xs targets o) /\
      m' = fold_left (fun m b => learn m v shared (fst b) (snd b)) (concat used) m
  | Err er => er = RuntimeError /\ head_width v <> k
  end.
Proof using All.
  intros NE LT WT. induction e as [|e IH]; intros m s; cbn [learn_epochs]; [split; [reflexivity|split; [intros o []|reflexivity]]|].
  assert (NP : (0 < length xs)%nat) by (destruct xs; [easy|cbn; lia]).
  destruct (cycle_one_pass G (length xs) (batch cfg) s GO NP BP) as (idx & s1 & l & E & C & P & F). change (Z.of_nat (length xs)) with (lenZ xs) in E. rewrite E. cbn [bind].
  set (pr := fun i => map (fun r => (nth r xs dx, nth r targets [])) i).
  replace (map (fun i => (rows xs i dx, rows targets i [])) idx) with (map (fun l => (map fst l, map snd l)) (map pr idx))
    by (rewrite map_map; apply map_ext; intros i; unfold pr, rows; now rewrite !map_map).
  pose proof (learn_batches_spec v shared (map pr idx)) as LB. rewrite Forall_forall in F.
  assert (OKB : forall l, In l (map pr idx) -> l <> [] /\ forall p, In p l -> length (snd p) = k).
  { intros q I. apply in_map_iff in I. destruct I as (i & <- & I). destruct (F i I) as (NEi & _ & _ & LTi). split; [intros Z; apply map_eq_nil in Z; easy|].
    intros p Ip. unfold pr in Ip. apply in_map_iff in Ip. destruct Ip as (r & <- & Ir). cbn. apply WT, nth_In. rewrite LT. now apply LTi. }
  specialize (LB OKB m). destruct (learn_batches _ _ _ _ _ _) as [[used m1]|er]; cbn [bind]; [|exact LB]. destruct LB as [EU ->].
  specialize (IH (fold_left (fun m b => learn m v shared (fst b) (snd b)) used m) s1). destruct (learn_epochs _ _ _ _ e _ _ _ _ _ _ _ _) as [[more m2]|er]; cbn [bind]; [|exact IH].
  destruct IH as (LE & OP & ->). split; [cbn; lia|]. split; [|cbn [concat]; now rewrite fold_left_app].
  intros o [<-|I]; [|now apply OP]. exists (map pr idx). split; [|split; [|exact EU]].
  - unfold pr. rewrite <- concat_map, C. etransitivity; [apply Permutation_map; exact P|].
    replace (combine xs targets) with (map (fun r => (nth r xs dx, nth r targets [])) (seq 0 (length xs))); [reflexivity|].
    rewrite <- (nth_seq (dx, []) (combine xs targets)). rewrite combine_length, LT, Nat.min_id. apply map_ext. intros r. now rewrite combine_nth.
  - intros q I. apply in_map_iff in I. destruct I as (i & <- & I). destruct (F i I) as (NEi & LZ & _ & _). split; [intros Z; apply map_eq_nil in Z; easy|].
    unfold pr, lenZ in *. now rewrite map_length.
Qed.

Lemma train_head_spec m v shared xs targets epochs seed : xs <> [] -> length targets = length xs -> (forall t, In t targets -> length t = k) -> (0 <= epochs)%Z ->
  match train_head G seeded dx learn head_width m v shared xs targets (batch cfg) epochs seed with
  | Ok (jb, m') => trained learn cfg v shared xs targets epochs m jb m'
  | Err er => er = RuntimeError /\ head_width v <> k
  end.
Proof using All.
  intros NE LT WT EP. unfold train_head. destruct (Z.eqb_spec (lenZ xs) 0); [exfalso; destruct xs; [easy|unfold lenZ in *; cbn [length] in *; lia]|].
  pose proof (learn_epochs_spec v shared xs targets NE LT WT (Z.to_nat epochs) m (seeded seed)) as LE.
  destruct (learn_epochs _ _ _ _ _ _ _ _ _ _ _ _ _) as [[used m']|er]; cbn [bind]; [|exact LE]. destruct LE as (L & OP & ->).
  unfold trained. cbn [j_head j_shared j_rows j_targets j_epochs]. repeat (split; [reflexivity|]). split; [unfold lenZ; lia|]. split; [exact OP|reflexivity].
Qed.
End Train.

(* ------------------------------------------------------------------ rounds *)
Definition wrong_width (head_width : nat -> nat) (k : nat) : Prop := exists v, (v < 3)%nat /\ head_width v <> k.
Definition width_error (e : exn) : Prop := e = InductiveValidationError \/ e = RuntimeError.

Section Rounds.
Context {St X M : Type}.
Variable G : Gen St.
Variable seeded : Z -> St.
Variable randn : Z -> nat -> nat -> list (list Q).
Variable softmax : list Q -> list Q.
Variable argmax : list Q -> Z.
Variable dx : X.
Variable score : M -> nat -> X -> list Q.
Variable noisy : M -> nat -> nat -> list X -> (list (list Q) * list (list Q)) * M.
Variable learn : M -> nat -> bool -> list X -> list (list Q) -> M.
Variable head_width : nat -> nat.
Variable cfg : config.
Variable X_l X_u : list X.
Variable y_l : list Z.
Variable k : nat.
Variable seed : Z.
Hypothesis GO : gen_ok G.
Hypothesis SM : softmax_ok softmax.
Hypothesis AM : argmax_ok argmax.
Hypothesis NK : nets_ok head_width score noisy.
Hypothesis RN : forall s n w, table n w (randn s n w).
Hypothesis NU : numbers_ok cfg.
Hypothesis XL : X_l <> [].
Hypothesis LY : length y_l = length X_l.
Hypothesis KP : (0 < k)%nat.
Hypothesis YK : forall c, In c y_l -> (0 <= c < Z.of_nat k)%Z.

Lemma smear_round_spec m ns ts :
  match smear_round G seeded randn dx learn head_width cfg X_l y_l k m ns ts with
  | Ok (jobs, m') => smear_jobs learn cfg X_l y_l k (fun i => randn (ns + Z.of_nat i)%Z (length y_l) k) m jobs m'
  | Err e => width_error e /\ wrong_width head_width k
  end.
Proof using All.
  destruct NU as (N1 & N2 & N3 & N4 & N5 & N6 & N7 & N8 & N9 & N10 & N11 & N12). unfold smear_round.
  destruct (smear_spec k (smear_std cfg) (randn (ns + 0)%Z (length y_l) k) y_l N8 (RN _ _ _) YK) as (t0 & -> & L0 & W0 & S0). cbn [bind].
  destruct (smear_spec k (smear_std cfg) (randn (ns + 1)%Z (length y_l) k) y_l N8 (RN _ _ _) YK) as (t1 & -> & L1 & W1 & S1). cbn [bind].
  destruct (smear_spec k (smear_std cfg) (randn (ns + 2)%Z (length y_l) k) y_l N8 (RN _ _ _) YK) as (t2 & -> & L2 & W2 & S2). cbn [bind train_smeared].
  assert (WW : forall e v, (v < 3)%nat -> e = RuntimeError /\ head_width v <> k -> width_error e /\ wrong_width head_width k) by (intros e v V [-> H]; split; [now right|now exists v]).
  pose proof (train_head_spec G seeded dx learn head_width cfg k GO N3) as TH.
  pose proof (TH m 0%nat true X_l t0 (init_epochs cfg) (ts + Z.of_nat 0)%Z XL ltac:(lia) W0 ltac:(lia)) as T0.
  destruct (train_head _ _ _ _ _ m _ _ _ _ _ _ _) as [[j0 m1]|e]; cbn [bind]; [|now apply (WW e 0%nat); [lia|]].
  pose proof (TH m1 1%nat true X_l t1 (init_epochs cfg) (ts + Z.of_nat 1)%Z XL ltac:(lia) W1 ltac:(lia)) as T1.
  destruct (train_head _ _ _ _ _ m1 _ _ _ _ _ _ _) as [[j1 m2]|e]; cbn [bind]; [|now apply (WW e 1%nat); [lia|]].
  pose proof (TH m2 2%nat true X_l t2 (init_epochs cfg) (ts + Z.of_nat 2)%Z XL ltac:(lia) W2 ltac:(lia)) as T2.
  destruct (train_head _ _ _ _ _ m2 _ _ _ _ _ _ _) as [[j2 m3]|e]; cbn [bind]; [|now apply (WW e 2%nat); [lia|]].
  exists j0, j1, j2, m1, m2. split; [reflexivity|]. split; [|split]; [exists t0|exists t1|exists t2]; (split; [assumption|split; assumption]).
Qed.

Lemma pool_spec m t v j h pool sigma : (v < 3)%nat -> (j < 3)%nat -> (h < 3)%nat ->
  match train_on_pool G seeded softmax argmax dx score noisy learn head_width cfg X_l k seed m t v j h pool sigma (map (indicator k) y_l) with
  | Ok (jb, m') => pool_job softmax argmax dx score noisy learn cfg X_l y_l k v j h sigma pool m jb m'
  | Err e => width_error e /\ wrong_width head_width k
  end.
Proof using All.
  intros V J H. destruct NU as (N1 & N2 & N3 & N4 & N5 & N6 & N7 & N8 & N9 & N10 & N11 & N12). unfold train_on_pool.
  assert (WW : forall e, e = InductiveValidationError /\ head_width j <> head_width h -> width_error e /\ wrong_width head_width k).
  { intros e [-> NE]. split; [now left|]. destruct (Nat.eq_dec (head_width j) k) as [E|E]; [exists h; split; [exact H|congruence]|now exists j]. }
  pose proof (label_spec softmax argmax dx score noisy head_width cfg SM NK N3 pool m j h sigma N7) as LS. cbn zeta in LS.
  destruct (label_unlabeled _ _ _ _ _ _ _ _ _ _ _ _ _ _) as [[[xs labels] m1]|e]; cbn [bind]; [|now apply WW]. destruct LS as (picked & steady & AG & F1 & -> & ->).
  set (row := fun p : nat * Z => nth (fst p) pool dx) in *.
  assert (STEP : match (if (1 <? des_passes cfg)%Z && (0 <? lenZ (map row steady))%Z then
       do ' (keep, m2) <- dropout_filter softmax argmax noisy m1 j h (map row steady) (map snd steady) (des_passes cfg) (drop_fraction cfg) (batch cfg);
       Ok (select keep (map row steady), select keep (map snd steady), m2)
     else Ok (map row steady, map snd steady, m1)) with
     | Ok (xs, labels, m2) => exists kept, filtered softmax argmax dx noisy cfg j h pool (des_passes cfg) m1 steady kept m2 /\ xs = map row kept /\ labels = map snd kept
     | Err e => e = InductiveValidationError /\ head_width j <> head_width h
     end).
  { pose proof (dropout_spec softmax argmax dx score noisy head_width cfg SM NK N3 pool j h steady m1 (des_passes cfg)) as DS. cbn zeta in DS. fold row in DS.
    destruct ((1 <? des_passes cfg)%Z && (0 <? lenZ (map row steady))%Z) eqn:E.
    - destruct (dropout_filter _ _ _ _ _ _ _ _ _ _ _) as [[keep m2]|e]; cbn [bind]; exact DS.
    - exists steady. split; [|now split]. split; [now split|]. intros P1. assert (steady = []) as -> by (unfold lenZ in E; rewrite map_length in E; destruct steady; [reflexivity|cbn [length] in E; lia]).
      exists [], (repeat [] (Z.to_nat (des_passes cfg))). split; [split; [reflexivity|intros l []]|]. split; [unfold lenZ; rewrite repeat_length; lia|]. split; [|reflexivity].
      generalize (Z.to_nat (des_passes cfg)). induction n as [|n IH]; cbn; [constructor|]. econstructor; [constructor|exact IH]. }
  match type of STEP with match ?x with _ => _ end => destruct x as [[[xs labels] m2]|e] end; cbn [bind]; [|now apply WW]. destruct STEP as (kept & F2 & -> & ->).
  assert (STEP2 : match (if (0 <? lenZ (map row kept))%Z then do hot <- one_hot_rows k (map snd kept); Ok (X_l ++ map row kept, map (indicator k) y_l ++ hot) else Ok (X_l, map (indicator k) y_l)) with
     | Ok (x_hat, y_hat) => x_hat = X_l ++ map row kept /\ y_hat = map (indicator k) (y_l ++ map snd kept)
     | Err e => e = RuntimeError /\ head_width j <> k end).
  { destruct (Z.ltb_spec 0 (lenZ (map row kept))) as [P|P].
    - pose proof (one_hot_rows_spec k (map snd kept)) as OH. destruct (one_hot_rows k (map snd kept)) as [hot|e]; cbn [bind].
      + destruct OH as [-> _]. split; [reflexivity|now rewrite map_app].
      + destruct OH as (-> & c & I & NR). split; [reflexivity|]. intros EW. apply NR. apply in_map_iff in I. destruct I as ((i & c') & <- & I). cbn [snd].
        apply (filtered_incl _ _ _ _ _ _ _ _ _ _ _ _ _ F2) in I. apply (filtered_incl _ _ _ _ _ _ _ _ _ _ _ _ _ F1) in I. apply AG in I. destruct I as (_ & A1 & _ & _).
        assert (LW : length (softmax (score m j (nth i pool dx))) = k) by (rewrite (proj1 (SM _)), (proj1 NK); exact EW).
        assert (NEQ : softmax (score m j (nth i pool dx)) <> []) by (intros Z; rewrite Z in LW; cbn in LW; lia).
        destruct (AM _ NEQ) as [R _]. rewrite A1 in R. unfold lenZ in R. lia.
    - assert (kept = []) as -> by (unfold lenZ in P; rewrite map_length in P; destruct kept; [reflexivity|cbn [length] in P; lia]). cbn [map]. now rewrite !app_nil_r. }
  match type of STEP2 with match ?x with _ => _ end => destruct x as [[x_hat y_hat]|e] end; cbn [bind]; [|destruct STEP2 as [-> NE]; split; [now right|now exists j]].
  destruct STEP2 as [-> ->].
  pose proof (train_head_spec G seeded dx learn head_width cfg k GO N3 m2 v (Nat.eqb v 0) (X_l ++ map row kept) (map (indicator k) (y_l ++ map snd kept)) (train_epochs cfg) (seed + 4000 + t * 10 + Z.of_nat v)%Z) as TH.
  assert (A1 : X_l ++ map row kept <> []) by (intros Z; apply app_eq_nil in Z; tauto).
  assert (A2 : length (map (indicator k) (y_l ++ map snd kept)) = length (X_l ++ map row kept)) by (rewrite map_length, !app_length, !map_length; lia).
  assert (A3 : forall t, In t (map (indicator k) (y_l ++ map snd kept)) -> length t = k) by (intros q I; apply in_map_iff in I; destruct I as (c & <- & _); apply one_hot_length).
  specialize (TH A1 A2 A3 ltac:(lia)). destruct (train_head _ _ _ _ _ m2 _ _ _ _ _ _ _) as [[jb m']|e]; [|destruct TH as [-> NE]; split; [now right|now exists v]].
  exists picked, steady, kept, m1, m2. exact (conj AG (conj F1 (conj F2 TH))).
Qed.

Lemma pool_sampled t : (0 < t)%Z ->
  let pool := sample_pool G dx X_u (Z.min (pool_base cfg * 2 ^ t) (lenZ X_u)) (seeded (seed + 3000 + t)%Z) in
  let full := (lenZ X_u <= pool_base cfg * 2 ^ t)%Z in
  (full -> pool = X_u) /\
  (~ full -> exists idx, NoDup idx /\ (forall i, In i idx -> (i < length X_u)%nat) /\ lenZ idx = (pool_base cfg * 2 ^ t)%Z /\ pool = map (fun i => nth i X_u dx) idx).
Proof using All.
  intros TP pool full. unfold pool, sample_pool, full. destruct NU as (N1 & _). assert (0 < 2 ^ t)%Z by (apply Z.pow_pos_nonneg; lia). split; intros F.
  - rewrite (proj2 (Z.leb_le _ _)); [reflexivity|lia].
  - rewrite (proj2 (Z.leb_gt _ _)) by lia. pose proof (GO (seeded (seed + 3000 + t)%Z) (length X_u)) as P.
    set (perm := fst (g_perm G (seeded (seed + 3000 + t)%Z) (length X_u))) in *. exists (firstn (Z.to_nat (Z.min (pool_base cfg * 2 ^ t) (lenZ X_u))) perm).
    split; [apply NoDup_firstn, (Permutation_NoDup (Permutation_sym P)), seq_NoDup|]. split; [|split; [|reflexivity]].
    + intros i I. apply In_firstn in I. apply (Permutation_in _ P) in I. apply in_seq in I. lia.
    + assert (LP : length perm = length X_u) by (rewrite (Permutation_length P); apply seq_length). unfold lenZ in *. rewrite firstn_length, LP. nia.
Qed.

Definition fresh_after (before : list (@round X)) : bool := match rev before with [] => true | Tuned _ :: _ => true | Pooled _ _ _ :: _ => false end.
Lemma rounds_spec n : forall a before flag sigma m, length before = a -> flag = fresh_after before ->
  sigma == Qmax 0 (sigma0 cfg - inject_Z (tunings before) * sigma_decay cfg) ->
  match run_rounds G seeded randn softmax argmax dx score noisy learn head_width cfg X_l X_u y_l k seed (map Z.of_nat (seq (S a) n)) flag sigma (map (indicator k) y_l) m with
  | Ok (rs, m') => length rs = n /\ exists states : nat -> M, states 0%nat = m /\ states n = m' /\
      forall i, (i < n)%nat ->
        scheduled dx cfg X_u (Z.of_nat (S (a + i))) (before ++ firstn i rs) (nth i rs (Tuned [])) /\
        round_ok softmax argmax dx score noisy learn cfg X_l y_l k (fun v => randn (seed + 1000 + Z.of_nat (S (a + i)) * 10 + Z.of_nat v)%Z (length y_l) k)
          (nth i rs (Tuned [])) (states i) (states (S i))
  | Err e => width_error e /\ wrong_width head_width k
  end.
Proof using All.
  induction n as [|n IH]; intros a before flag sigma m LB FL SG; cbn [seq map run_rounds].
  { split; [reflexivity|]. exists (fun _ => m). split; [reflexivity|]. split; [reflexivity|lia]. }
  set (t := Z.of_nat (S a)) in *. assert (TP : (0 < t)%Z) by (unfold t; lia). pose proof (pool_sampled t TP) as PS. cbn zeta in PS.
  destruct NU as (N1 & N2 & N3 & N4 & N5 & N6 & N7 & N8 & N9 & N10 & N11 & N12).
  set (np := Z.min (pool_base cfg * 2 ^ t) (lenZ X_u)) in *.
  assert (GATE : ((np =? lenZ X_u) && (0 <? interval cfg) && (t mod interval cfg =? 0))%Z = true <-> (lenZ X_u <= pool_base cfg * 2 ^ t /\ 0 < interval cfg /\ (interval cfg | t))%Z).
  { rewrite !Bool.andb_true_iff, Z.eqb_eq, Z.ltb_lt, Z.eqb_eq. unfold np. split.
    - intros ((A & B) & C). split; [lia|]. split; [exact B|]. apply Z.mod_divide; [lia|exact C].
    - intros (A & B & C). split; [split; [lia|exact B]|]. apply Z.mod_divide; [lia|exact C]. }
  assert (APP : forall (r : @round X) rs i, before ++ firstn (S i) (r :: rs) = (before ++ [r]) ++ firstn i rs) by (intros; rewrite <- app_assoc; reflexivity).
  destruct ((np =? lenZ X_u) && (0 <? interval cfg) && (t mod interval cfg =? 0))%Z eqn:EG.
  - apply proj1 in GATE. specialize (GATE eq_refl).
    pose proof (smear_round_spec m (seed + 1000 + t * 10)%Z (seed + 2000 + t * 10)%Z) as SR. destruct (smear_round _ _ _ _ _ _ _ _ _ _ _ _ _) as [[jobs m1]|e]; cbn [bind]; [|exact SR].
    assert (SG' : Qmax 0 (sigma - sigma_decay cfg) == Qmax 0 (sigma0 cfg - inject_Z (tunings (before ++ [Tuned jobs])) * sigma_decay cfg)).
    { unfold tunings. rewrite filter_app. cbn [filter]. unfold lenZ. rewrite app_length. cbn [length]. rewrite Nat2Z.inj_add, inject_Z_plus. change (inject_Z (Z.of_nat 1)) with 1.
      unfold tunings, lenZ in SG. set (w := inject_Z (Z.of_nat (length (filter _ before)))) in *. rewrite SG.
      assert (EQ : sigma0 cfg - (w + 1) * sigma_decay cfg == (sigma0 cfg - w * sigma_decay cfg) - sigma_decay cfg) by ring. rewrite EQ.
      set (q := sigma0 cfg - w * sigma_decay cfg). destruct (Qlt_le_dec q 0) as [L|L].
      - rewrite (Q.max_l 0 q) by lra. rewrite !Q.max_l by lra. reflexivity.
      - rewrite (Q.max_r 0 q) by lra. reflexivity. }
    specialize (IH (S a) (before ++ [Tuned jobs]) true (Qmax 0 (sigma - sigma_decay cfg)) m1).
    rewrite app_length, LB in IH. cbn [length] in IH. specialize (IH ltac:(lia)). unfold fresh_after in IH. rewrite rev_unit in IH. specialize (IH eq_refl SG').
    destruct (run_rounds _ _ _ _ _ _ _ _ _ _ _ _ _ _ _ _ _ _ _ _ _) as [[rs m']|e]; cbn [bind]; [|exact IH]. destruct IH as (LR & st & S0 & SN & H).
    split; [cbn; lia|]. exists (fun i => match i with O => m | S i => st i end). split; [reflexivity|]. split; [exact SN|].
    intros [|i] I.
    + cbn [nth firstn]. rewrite app_nil_r, Nat.add_0_r. split; [exact GATE|]. rewrite S0. exact SR.
    + rewrite APP. cbn [nth]. specialize (H i ltac:(lia)). replace (S (a + S i)) with (S (S a + i)) by lia. exact H.
  - assert (NG : ~ (lenZ X_u <= pool_base cfg * 2 ^ t /\ 0 < interval cfg /\ (interval cfg | t))%Z) by (intros Q; apply GATE in Q; discriminate Q).
    set (sg := Qmin 1 (Qmax 0 (if flag then sigma - sigma_os cfg else sigma))). set (pool := sample_pool G dx X_u np (seeded (seed + 3000 + t)%Z)) in *.
    pose proof (pool_spec m t 0 1 2 pool sg ltac:(lia) ltac:(lia) ltac:(lia)) as P0. destruct (train_on_pool _ _ _ _ _ _ _ _ _ _ _ _ _ m _ _ _ _ _ _ _) as [[j0 m0]|e]; cbn [bind]; [|exact P0].
    pose proof (pool_spec m0 t 1 0 2 pool sg ltac:(lia) ltac:(lia) ltac:(lia)) as P1. destruct (train_on_pool _ _ _ _ _ _ _ _ _ _ _ _ _ m0 _ _ _ _ _ _ _) as [[j1 m1]|e]; cbn [bind]; [|exact P1].
    pose proof (pool_spec m1 t 2 0 1 pool sg ltac:(lia) ltac:(lia) ltac:(lia)) as P2. destruct (train_on_pool _ _ _ _ _ _ _ _ _ _ _ _ _ m1 _ _ _ _ _ _ _) as [[j2 m2]|e]; cbn [bind]; [|exact P2].
    specialize (IH (S a) (before ++ [Pooled sg pool [j0; j1; j2]]) false sigma m2).
    rewrite app_length, LB in IH. cbn [length] in IH. specialize (IH ltac:(lia)). unfold fresh_after in IH. rewrite rev_unit in IH. specialize (IH eq_refl).
    assert (TE : tunings (before ++ [Pooled sg pool [j0; j1; j2]]) = tunings before) by (unfold tunings; rewrite filter_app; cbn [filter]; now rewrite app_nil_r).
    rewrite TE in IH. specialize (IH SG).
    destruct (run_rounds _ _ _ _ _ _ _ _ _ _ _ _ _ _ _ _ _ _ _ _ _) as [[rs m']|e]; cbn [bind]; [|exact IH]. destruct IH as (LR & st & S0 & SN & H).
    split; [cbn; lia|]. exists (fun i => match i with O => m | S i => st i end). split; [reflexivity|]. split; [exact SN|].
    intros [|i] I.
    + cbn [nth firstn]. rewrite app_nil_r, Nat.add_0_r. split.
      * split; [exact NG|]. split; [|exact PS]. fold (fresh_after before). rewrite <- FL. unfold sg. destruct flag; [rewrite SG; reflexivity|].
        assert (E0 : Qmax 0 (sigma0 cfg - inject_Z (tunings before) * sigma_decay cfg) - 0 == sigma) by (rewrite SG; ring). rewrite E0. reflexivity.
      * rewrite S0. exists j0, j1, j2, m0, m1. exact (conj eq_refl (conj P0 (conj P1 P2))).
    + rewrite APP. cbn [nth]. specialize (H i ltac:(lia)). replace (S (a + S i)) with (S (S a + i)) by lia. exact H.
Qed.
End Rounds.

(* ------------------------------------------------------------------ the fit *)
Lemma numbers_spec cfg : match tn_numbers cfg with Ok _ => numbers_ok cfg | Err e => e = InductiveValidationError /\ ~ numbers_ok cfg end.
Proof.
  unfold tn_numbers, numbers_ok.
  repeat match goal with |- context [if ?c then _ else _] => let E := fresh "E" in destruct c eqn:E end;
    repeat rewrite ?Bool.negb_true_iff, ?Bool.negb_false_iff, ?Bool.orb_true_iff, ?Bool.orb_false_iff, ?Bool.andb_true_iff, ?Bool.andb_false_iff in *;
    repeat match goal with
    | H : Qle_bool _ _ = true |- _ => apply Qle_bool_iff in H
    | H : Qle_bool _ _ = false |- _ => apply Qle_bool_false in H
    end; try (split; [reflexivity|]; intros HH; try lia; destruct HH as (A1 & A2 & A3 & A4 & A5 & A6 & A7 & A8 & A9 & A10 & A11 & A12);
      repeat match goal with H : _ \/ _ |- _ => destruct H as [H|H] | H : negb _ = _ |- _ => first [rewrite Bool.negb_true_iff in H|rewrite Bool.negb_false_iff in H] | H : Qle_bool _ _ = false |- _ => apply Qle_bool_false in H end; lra).
  repeat match goal with H : _ /\ _ |- _ => destruct H end. repeat rewrite ?Bool.negb_false_iff in *.
  repeat match goal with H : Qle_bool _ _ = true |- _ => apply Qle_bool_iff in H end.
  repeat split; first [lia|assumption].
Qed.
Lemma overlap_spec a b : overlap a b = false <-> apart a b.
Proof.
  unfold overlap, apart. split.
  - intros H x I J. assert (T : existsb (fun x => memZ x b) a = true) by (apply existsb_exists; exists x; split; [exact I|now apply memZ_In]). congruence.
  - intros H. destruct (existsb _ a) eqn:E; [|reflexivity]. apply existsb_exists in E. destruct E as (x & I & J). apply memZ_In in J. exfalso. exact (H x I J).
Qed.
Lemma bundles_spec shared heads : match check_bundles shared heads with Ok _ => bundles_ok shared heads | Err e => e = InductiveValidationError /\ ~ bundles_ok shared heads end.
Proof.
  unfold check_bundles, bundles_ok.
  destruct heads as [|h0 [|h1 [|h2 [|h3 r]]]]; try (split; [reflexivity|]; intros (a & b & c & E & _); discriminate E).
  cbn [existsb]. pose proof (overlap_spec shared h0) as S0. pose proof (overlap_spec shared h1) as S1. pose proof (overlap_spec shared h2) as S2.
  pose proof (overlap_spec h0 h1) as H01. pose proof (overlap_spec h0 h2) as H02. pose proof (overlap_spec h1 h2) as H12.
  assert (D : forall x P, (x = false <-> P) -> x = true -> ~ P) by (intros x P Q -> HP; apply Q in HP; discriminate HP).
  destruct (overlap shared h0 || (overlap shared h1 || (overlap shared h2 || false))) eqn:E1.
  - split; [reflexivity|]. intros (a & b & c & E & A0 & A1 & A2 & _). injection E as <- <- <-. apply S0 in A0. apply S1 in A1. apply S2 in A2. rewrite A0, A1, A2 in E1. discriminate E1.
  - destruct (overlap h0 h1 || overlap h0 h2 || overlap h1 h2) eqn:E2.
    + split; [reflexivity|]. intros (a & b & c & E & _ & _ & _ & A0 & A1 & A2). injection E as <- <- <-. apply H01 in A0. apply H02 in A1. apply H12 in A2. rewrite A0, A1, A2 in E2. discriminate E2.
    + repeat rewrite Bool.orb_false_iff in *. exists h0, h1, h2. split; [reflexivity|]. tauto.
Qed.
Lemma classes_spec y : y <> [] -> (forall c, In c y -> (0 <= c)%Z) -> classes y (Z.to_nat (fold_right Z.max (hd 0%Z y) y + 1)).
Proof.
  intros NE P. assert (GE : forall d l c, In c l -> (c <= fold_right Z.max d l)%Z) by (induction l as [|x l IH]; intros c I; [destruct I|destruct I as [->|I]; cbn; [lia|specialize (IH c I); lia]]).
  assert (IN : forall d l, In (fold_right Z.max d l) (d :: l)).
  { induction l as [|x l IH]; [now left|]. cbn [fold_right]. destruct (Z.max_spec x (fold_right Z.max d l)) as [[_ ->]|[_ ->]]; [destruct IH as [IH|IH]; [now left|now right; right]|now right; left]. }
  assert (I2 : In (fold_right Z.max (hd 0%Z y) y) y).
  { destruct y as [|x y]; [easy|]. cbn [hd]. destruct (IN x (x :: y)) as [E|I]; [left; exact E|exact I]. }
  pose proof (P _ I2). split; [replace (Z.of_nat _ - 1)%Z with (fold_right Z.max (hd 0%Z y) y) by lia; exact I2|]. intros c I. specialize (GE (hd 0%Z y) y c I). lia.
Qed.

Lemma tn_fit_spec {St X M : Type} (G : Gen St) seeded randn softmax argmax (dx : X) (score : M -> nat -> X -> list Q) noisy learn head_width cfg shared heads X_l X_u y_l seed m :
  gen_ok G -> softmax_ok softmax -> argmax_ok argmax -> nets_ok head_width score noisy -> (forall s n w, table n w (randn s n w)) -> length y_l = length X_l ->
  match tn_fit G seeded randn softmax argmax dx score noisy learn head_width cfg shared heads X_l X_u y_l seed m with
  | Ok (init, rounds, m') =>
      numbers_ok cfg /\ bundles_ok shared heads /\ X_u <> [] /\ (forall c, In c y_l -> (0 <= c)%Z) /\
      exists k states, classes y_l k /\
        smear_jobs learn cfg X_l y_l k (fun v => randn (seed + Z.of_nat v)%Z (length y_l) k) m init (states 0%nat) /\
        lenZ rounds = max_rounds cfg /\ states (length rounds) = m' /\
        forall i, (i < length rounds)%nat ->
          scheduled dx cfg X_u (Z.of_nat (S i)) (firstn i rounds) (nth i rounds (Tuned [])) /\
          round_ok softmax argmax dx score noisy learn cfg X_l y_l k (fun v => randn (seed + 1000 + Z.of_nat (S i) * 10 + Z.of_nat v)%Z (length y_l) k)
            (nth i rounds (Tuned [])) (states i) (states (S i))
  | Err e =>
      (e = InductiveValidationError /\ (X_l = [] \/ X_u = [] \/ ~ bundles_ok shared heads \/ ~ numbers_ok cfg \/ exists c, In c y_l /\ (c < 0)%Z)) \/
      ((e = InductiveValidationError \/ e = RuntimeError) /\ exists k v, classes y_l k /\ (v < 3)%nat /\ head_width v <> k)
  end.
Proof.
  intros GO SM AM NK RN LY. unfold tn_fit.
  destruct (Z.eqb_spec (lenZ X_l) 0) as [E|NL]; [left; split; [reflexivity|left; destruct X_l; [reflexivity|unfold lenZ in E; cbn [length] in E; lia]]|].
  destruct (Z.eqb_spec (lenZ X_u) 0) as [E|NUL]; [left; split; [reflexivity|right; left; destruct X_u; [reflexivity|unfold lenZ in E; cbn [length] in E; lia]]|].
  assert (XL : X_l <> []) by (intros ->; now apply NL). assert (XU : X_u <> []) by (intros ->; now apply NUL).
  pose proof (bundles_spec shared heads) as BS. destruct (check_bundles shared heads); cbn [bind]; [|destruct BS as [-> BS]; left; tauto].
  pose proof (numbers_spec cfg) as NS. destruct (tn_numbers cfg); cbn [bind]; [|destruct NS as [-> NS]; left; tauto].
  destruct (existsb (fun c => (c <? 0)%Z) y_l) eqn:EN.
  { apply existsb_exists in EN. destruct EN as (c & I & H). left. split; [reflexivity|]. do 4 right. exists c. split; [exact I|lia]. }
  assert (YP : forall c, In c y_l -> (0 <= c)%Z).
  { intros c I. destruct (Z_lt_dec c 0) as [L|]; [|lia]. exfalso. assert (T : existsb (fun c => (c <? 0)%Z) y_l = true) by (apply existsb_exists; exists c; split; [exact I|lia]). congruence. }
  assert (YN : y_l <> []) by (intros ->; destruct X_l; [easy|discriminate LY]).
  pose proof (classes_spec y_l YN YP) as CL. set (k := Z.to_nat (fold_right Z.max (hd 0%Z y_l) y_l + 1)) in *.
  assert (YK : forall c, In c y_l -> (0 <= c < Z.of_nat k)%Z) by (intros c I; split; [now apply YP|now apply CL]).
  assert (KP : (0 < k)%nat) by (destruct CL as [I _]; specialize (YK _ I); lia).
  pose proof (one_hot_rows_spec k y_l) as OH. destruct (one_hot_rows k y_l) as [hot|e]; [|destruct OH as (_ & c & I & H); exfalso; apply H, YK, I]. destruct OH as [-> _]. cbn [bind].
  assert (WW : forall e, width_error e /\ wrong_width head_width k -> (e = InductiveValidationError \/ e = RuntimeError) /\ exists k v, classes y_l k /\ (v < 3)%nat /\ head_width v <> k).
  { intros e (WE & v & V & NE). split; [exact WE|]. now exists k, v. }
  match goal with |- context [smear_round ?a ?b ?c ?d ?e ?f ?g ?h ?i ?j ?l ?n ?o] => pose proof (smear_round_spec a b c softmax argmax d score noisy e f g h X_u i j seed GO SM AM NK RN NS XL LY KP YK l n o) as SR0; destruct (smear_round a b c d e f g h i j l n o) as [[init m1]|er] end; cbn [bind]; [|right; now apply WW].
  pose proof (rounds_spec G seeded randn softmax argmax dx score noisy learn head_width cfg X_l X_u y_l k seed GO SM AM NK RN NS XL LY KP YK (Z.to_nat (max_rounds cfg)) 0 [] true (sigma0 cfg) m1 eq_refl eq_refl) as RS.
  assert (S0 : sigma0 cfg == Qmax 0 (sigma0 cfg - inject_Z (tunings (@nil (@round X))) * sigma_decay cfg)).
  { change (inject_Z (tunings (@nil (@round X)))) with 0. assert (Z0 : sigma0 cfg - 0 * sigma_decay cfg == sigma0 cfg) by ring. rewrite Z0. symmetry. apply Q.max_r. apply NS. }
  specialize (RS S0). destruct (run_rounds _ _ _ _ _ _ _ _ _ _ _ _ _ _ _ _ _ _ _ _ _) as [[rs m']|er]; cbn [bind]; [|right; now apply WW].
  destruct RS as (LR & st & ST0 & STN & H). split; [exact NS|]. split; [exact BS|]. split; [exact XU|]. split; [exact YP|].
  exists k, st. split; [exact CL|]. split; [rewrite ST0; exact SR0|]. split; [unfold lenZ; destruct NS as (_ & ? & _); lia|]. rewrite LR. split; [exact STN|].
  intros i I. exact (H i I).
Qed.
