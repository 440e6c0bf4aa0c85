From Coq Require Import List ZArith Lia Bool QArith Qminmax Permutation Sorted Lqa ZifyBool ZifyNat.
From Verif Require Import Prelude ListFacts QFacts FloatModel FloatProofs SamplingSpec InductModel InductSpec InductProofs InductLoopProofs
  EnsembleModel EnsembleSpec ProbaProofs.
Import ListNotations.
Open Scope Z_scope.

Lemma hits_agreements : forall y p, length p = length y -> hits y p = Z.of_nat (agreements y p).
Proof.
  unfold hits, agreements, lenZ. intros y p L. f_equal.
  assert (E : combine y p = map (fun i => (nth i y 0, nth i p 0)) (seq 0 (length y))).
  { rewrite <- (map_nth_seq y 0) at 1. rewrite <- (map_nth_seq p 0) at 1. rewrite L.
    induction (seq 0 (length y)) as [|a l IH]; cbn; [reflexivity|]. now rewrite IH. }
  rewrite E. clear E. induction (seq 0 (length y)) as [|i l IH]; cbn [map filter]; [reflexivity|]. cbn [fst snd].
  destruct (Z.eqb_spec (nth i y 0) (nth i p 0)); destruct (Z.eq_dec (nth i y 0) (nth i p 0)); try contradiction; cbn [length]; [now f_equal|exact IH].
Qed.

Lemma nearest_even_ext q q' k : (q == q')%Q -> nearest_even q' k -> nearest_even q k.
Proof. intros E [H1 H2]. unfold nearest_even. rewrite E. split; assumption. Qed.

Lemma round_even_nearest q : nearest_even q (round_even q).
Proof.
  unfold round_even. eapply nearest_even_ext; [|apply nearest_even_div; lia]. destruct q as [a b]. unfold Qeq, inject_Z. cbn. ring.
Qed.

Lemma nearest_even_lower q k n : nearest_even q k -> (inject_Z n <= q)%Q -> n <= k.
Proof.
  intros [H _] L. assert (H' : (Qabs.Qabs (q - inject_Z k) <= 1 # 2)%Q) by lra. clear H. rename H' into H. destruct (Z_le_gt_dec n k) as [|G]; [assumption|exfalso].
  assert (inject_Z k + 1 <= inject_Z n)%Q by (change 1%Q with (inject_Z 1); rewrite <- inject_Z_plus, <- Zle_Qle; lia).
  apply Qabs.Qabs_Qle_condition in H. lra.
Qed.

Lemma nearest_even_upper q k n : nearest_even q k -> (q <= inject_Z n)%Q -> k <= n.
Proof.
  intros [H _] L. assert (H' : (Qabs.Qabs (q - inject_Z k) <= 1 # 2)%Q) by lra. clear H. rename H' into H. destruct (Z_le_gt_dec k n) as [|G]; [assumption|exfalso].
  assert (inject_Z n + 1 <= inject_Z k)%Q by (change 1%Q with (inject_Z 1); rewrite <- inject_Z_plus, <- Zle_Qle; lia).
  apply Qabs.Qabs_Qle_condition in H. lra.
Qed.

Lemma flip_at_nth a b order y i : nth i (flip_at a b order y) 0 =
  if (i <? length y)%nat then (if memN i order then (if nth i y 0 =? a then b else a) else nth i y 0) else 0.
Proof.
  unfold flip_at. destruct (Nat.ltb_spec i (length y)) as [H|H].
  - rewrite (nth_indep _ 0 (if memN 0 order then (if nth 0 y 0 =? a then b else a) else nth 0 y 0)) by (rewrite map_length, seq_length; exact H).
    rewrite (map_nth (fun i => if memN i order then (if nth i y 0 =? a then b else a) else nth i y 0)), seq_nth by exact H. reflexivity.
  - apply nth_overflow. rewrite map_length, seq_length. lia.
Qed.

Lemma firstn_in_nth {A} (d : A) n l x : In x (firstn n l) -> exists i, (i < n)%nat /\ (i < length l)%nat /\ nth i l d = x.
Proof.
  intros H. apply (In_nth _ _ d) in H. destruct H as (i & Hi & E). rewrite firstn_length in Hi. exists i. split; [lia|]. split; [lia|].
  rewrite <- E. symmetry. clear E x. revert i l Hi. induction n as [|n IH]; intros i [|y l] Hi; cbn in *; try lia.
  destruct i; [reflexivity|]. apply IH. lia.
Qed.

Lemma nth_in_firstn {A} (d : A) n l i : (i < n)%nat -> (i < length l)%nat -> In (nth i l d) (firstn n l).
Proof.
  revert i l. induction n as [|n IH]; intros i l Hi Hl; [lia|]. destruct l as [|y l]; [cbn in Hl; lia|]. cbn [firstn].
  destruct i; cbn [nth]; [now left|right]. apply IH; cbn in *; lia.
Qed.

Lemma s4_labels_spec argsort rate a b conf pred i : sorts_positions argsort -> (0 <= rate)%Q -> a <> b ->
  length conf = length pred ->
  exists n, nearest_even (Qmin (rate * inject_Z (Z.of_nat i + 1)) (1 # 2) * inject_Z (Z.of_nat (length pred))) n /\
    0 <= n /\ flips_least_confident a b conf pred (s4_labels argsort rate a b conf pred i) (Z.to_nat n).
Proof.
  intros So R Ne L. unfold s4_labels. unfold lenZ. set (q := (Qmin _ _ * _)%Q).
  pose proof (round_even_nearest q) as NE. set (n := round_even q) in *. clearbody n. exists n. split; [exact NE|].
  assert (R1 : (0 <= Qmin (rate * inject_Z (Z.of_nat i + 1)) (1 # 2) <= 1 # 2)%Q).
  { split; [|apply Q.le_min_r]. apply Q.min_glb; [|lra]. apply Qmult_le_0_compat; [exact R|]. change 0%Q with (inject_Z 0). rewrite <- Zle_Qle. lia. }
  assert (L0 : (0 <= inject_Z (Z.of_nat (length pred)))%Q) by (change 0%Q with (inject_Z 0); rewrite <- Zle_Qle; lia).
  assert (N0 : 0 <= n).
  { apply (nearest_even_lower q); [exact NE|]. change (inject_Z 0) with 0%Q. unfold q. apply Qmult_le_0_compat; [apply R1|exact L0]. }
  assert (N1 : n <= Z.of_nat (length pred)).
  { apply (nearest_even_upper q); [exact NE|]. unfold q.
    assert (G : forall x y, (0 <= x <= 1 # 2)%Q -> (0 <= y)%Q -> (x * y <= y)%Q) by (intros; nra). apply G; assumption. }
  split; [exact N0|]. destruct (So conf) as [P S]. rewrite L in P, S.
  assert (La : length (argsort conf) = length pred) by (apply Permutation_length in P; now rewrite seq_length in P).
  assert (ND : NoDup (argsort conf)) by (apply (Permutation_NoDup (Permutation_sym P)), seq_NoDup).
  destruct (Z.leb_spec n 0) as [Hn|Hn].
  - assert (n = 0) as -> by lia. split; [reflexivity|]. exists []. cbn. split; [constructor|]. split; [reflexivity|].
    repeat (split; [intros; contradiction|]). split; [reflexivity|intros; contradiction].
  - set (F := firstn (Z.to_nat n) (argsort conf)).
    assert (FI : forall x, In x F -> (x < length pred)%nat).
    { intros x Hx. unfold F in Hx. destruct (firstn_in_nth 0%nat _ _ _ Hx) as (j & _ & Lj & <-).
      assert (I : In (nth j (argsort conf) 0%nat) (argsort conf)) by now apply nth_In. apply (Permutation_in _ P) in I. apply in_seq in I. lia. }
    split; [unfold flip_at; now rewrite map_length, seq_length|]. exists F. split.
    { unfold F. rewrite <- (firstn_skipn (Z.to_nat n)) in ND. now apply NoDup_app_iff in ND. }
    split; [unfold F; rewrite firstn_length; lia|]. split; [exact FI|].
    assert (Q1 : forall x, In x F -> nth x (flip_at a b F pred) 0 = if nth x pred 0 =? a then b else a).
    { intros x Hx. rewrite flip_at_nth. pose proof (FI x Hx). destruct (Nat.ltb_spec x (length pred)); [|lia]. apply memN_In in Hx. now rewrite Hx. }
    split; [intros x Hx E; rewrite (Q1 x Hx), E, Z.eqb_refl; reflexivity|].
    split; [intros x Hx E; rewrite (Q1 x Hx), E; destruct (Z.eqb_spec b a); congruence|].
    split.
    { intros x Hx. rewrite flip_at_nth. destruct (memN x F) eqn:M; [apply memN_In in M; contradiction|].
      destruct (Nat.ltb_spec x (length pred)); [reflexivity|]. symmetry. now apply nth_overflow. }
    intros x y Hx Hy Ny. unfold F in Hx. destruct (firstn_in_nth 0%nat _ _ _ Hx) as (u & Lu & Lu' & <-).
    assert (Iy : In y (argsort conf)) by (apply (Permutation_in _ (Permutation_sym P)); apply in_seq; lia). apply (In_nth _ _ 0%nat) in Iy. destruct Iy as (v & Lv & <-).
    apply S. split; [|lia]. destruct (le_lt_dec v u) as [C|C]; [|exact C]. exfalso. apply Ny. apply nth_in_firstn; lia.
Qed.

(* the running maximum of the loop *)
Lemma best_spec (acc : nat -> Z) base n :
  let best := fold_left (fun bst i => if snd bst <? acc i - base then (S i, acc i - base) else bst) (seq 0 n) (0%nat, 0) in
  let at_ j := match j with O => base | S i => acc i end in
  (fst best <= n)%nat /\ snd best = at_ (fst best) - base /\ (forall j, (j <= n)%nat -> at_ j <= at_ (fst best)) /\
  (forall j, (j < fst best)%nat -> at_ j < at_ (fst best)).
Proof.
  induction n as [|n IH].
  - cbn. split; [lia|]. split; [lia|]. split; [|intros; lia]. intros j Hj. replace j with 0%nat by lia. lia.
  - rewrite seq_S, fold_left_app. cbn [plus fold_left]. cbv zeta in *.
    destruct (fold_left _ (seq 0 n) (0%nat, 0)) as [m v]. cbn [fst snd] in *. destruct IH as (A & B & C & D).
    destruct (Z.ltb_spec v (acc n - base)) as [H|H]; cbn [fst snd].
    + split; [lia|]. split; [reflexivity|]. assert (G : forall j, (j <= n)%nat -> match j with O => base | S i => acc i end < acc n).
      { intros j Hj. specialize (C j Hj). lia. }
      split.
      * intros j Hj. destruct (Nat.eq_dec j (S n)) as [->|]; [lia|]. specialize (G j ltac:(lia)). lia.
      * intros j Hj. apply G. lia.
    + split; [lia|]. split; [exact B|]. split; [|exact D]. intros j Hj. destruct (Nat.eq_dec j (S n)) as [->|]; [lia|]. apply C. lia.
Qed.

Section S4Fit.
Context {X M : Type}.
Variable fit : nat -> list X -> list Z -> M.
Variable scores : M -> list X -> list (list Q).
Variable predict : M -> list X -> list Z.
Variable argsort : list Q -> list nat.
Hypothesis predict_length : forall m Z, length (predict m Z) = length Z.
Hypothesis scores_length : forall m Z, length (scores m Z) = length Z.
Hypothesis scores_wide : forall m Z r, In r (scores m Z) -> r <> [].
Hypothesis sorts : sorts_positions argsort.

Lemma s4_fit_spec k rate Xl yl Xu a b : (0 <= rate)%Q -> length Xl = length yl -> a < b -> (forall l, In l yl <-> l = a \/ l = b) ->
  exists sets best labs conf,
    s4_fit fit scores predict argsort k rate Xl yl Xu = Ok (sets, best) /\
    let base := fit 0%nat Xl yl in
    let pred := predict base Xu in
    let model j := fit j (fst (nth j sets ([], []))) (snd (nth j sets ([], []))) in
    let right j := agreements yl (predict (model j) Xl) in
    length labs = Z.to_nat k /\
    sets = (Xl, yl) :: map (fun lab => (Xl ++ Xu, yl ++ lab)) labs /\
    confidences (scores base Xu) (fun i => nth i conf 0%Q) /\
    (forall i, (i < Z.to_nat k)%nat -> exists n,
       nearest_even (Qmin (rate * inject_Z (Z.of_nat i + 1)) (1 # 2) * inject_Z (Z.of_nat (length Xu))) n /\
       flips_least_confident a b conf pred (nth i labs []) (Z.to_nat n)) /\
    (best <= Z.to_nat k)%nat /\
    (forall j, (j <= Z.to_nat k)%nat -> (right j <= right best)%nat) /\
    (forall j, (j < best)%nat -> (right j < right best)%nat).
Proof.
  intros R LX ab Hy. unfold s4_fit.
  assert (U : uniqueZ yl = [a; b]).
  { apply ascending_ext; [apply uniqueZ_ascending| |].
    - repeat constructor. exact ab.
    - intros x. rewrite uniqueZ_In, Hy. cbn. intuition. }
  rewrite U. destruct (row_maxima_ok (scores (fit 0%nat Xl yl) Xu)) as (conf & Ec); [apply scores_wide|]. rewrite Ec. cbn [bind].
  destruct (row_maxima_spec _ _ Ec) as [Lc Sc]. rewrite scores_length in Lc.
  set (pred := predict (fit 0%nat Xl yl) Xu) in *.
  set (lab := fun i => s4_labels argsort rate a b conf pred i).
  eexists. eexists. exists (map lab (seq 0 (Z.to_nat k))), conf. split; [reflexivity|]. cbv zeta.
  split; [now rewrite map_length, seq_length|]. split; [rewrite map_map; reflexivity|]. split.
  { intros i Hi. apply Sc. exact Hi. }
  assert (Lp : length pred = length Xu) by apply predict_length. split.
  { intros i Hi. destruct (s4_labels_spec argsort rate a b conf pred i sorts R ltac:(lia) ltac:(lia)) as (n & N & _ & Fl).
    exists n. rewrite <- Lp. split; [exact N|].
    rewrite (nth_indep _ [] (lab 0%nat)) by (rewrite map_length, seq_length; exact Hi). rewrite (map_nth lab), seq_nth by exact Hi. exact Fl. }
  set (acc := fun i => hits yl (predict (fit (S i) (Xl ++ Xu) (yl ++ lab i)) Xl)).
  destruct (best_spec acc (hits yl (predict (fit 0%nat Xl yl) Xl)) (Z.to_nat k)) as (B1 & _ & B3 & B4).
  set (best := fst (fold_left _ _ _)) in *. clearbody best.
  set (sets := (Xl, yl) :: _).
  assert (Eat : forall j, (j <= Z.to_nat k)%nat ->
    Z.of_nat (agreements yl (predict (fit j (fst (nth j sets ([], []))) (snd (nth j sets ([], [])))) Xl)) =
    match j with O => hits yl (predict (fit 0%nat Xl yl) Xl) | S i => acc i end).
  { intros [|j] Hj; cbn [nth fst snd].
    - unfold sets. cbn [nth fst snd]. rewrite <- hits_agreements; [reflexivity|]. rewrite predict_length. exact LX.
    - unfold sets. cbn [nth]. rewrite (nth_indep _ ([], []) ((fun i => (Xl ++ Xu, yl ++ lab i)) 0%nat)) by (rewrite map_length, seq_length; lia).
      rewrite (map_nth (fun i => (Xl ++ Xu, yl ++ lab i))), seq_nth by lia. cbn [plus fst snd].
      rewrite <- hits_agreements; [reflexivity|]. rewrite predict_length. exact LX. }
  split; [exact B1|]. split.
  - intros j Hj. specialize (B3 j Hj). rewrite <- (Eat j Hj), <- (Eat best B1) in B3. lia.
  - intros j Hj. specialize (B4 j Hj). rewrite <- (Eat j ltac:(lia)), <- (Eat best B1) in B4. lia.
Qed.
End S4Fit.
