From Coq Require Import List ZArith Lia Bool QArith Permutation Sorted Lqa ZifyBool ZifyNat.
From Verif Require Import Prelude ListFacts QFacts InductModel InductSpec InductProofs EnsembleModel EnsembleSpec.
Import ListNotations.
Open Scope Q_scope.

Lemma Qlt_bool_iff a b : Qlt_bool a b = true <-> a < b.
Proof.
  unfold Qlt_bool. rewrite negb_true_iff. destruct (Qle_bool b a) eqn:E.
  - apply Qle_bool_iff in E. split; [discriminate|intros; lra].
  - split; [|reflexivity]. intros _. apply Qnot_le_lt. intros H. apply Qle_bool_iff in H. congruence.
Qed.

Lemma neighbours_In edges i j : In j (neighbours_of edges i) <-> In (i, j) edges \/ In (j, i) edges.
Proof.
  unfold neighbours_of. rewrite sorted_set_In, in_flat_map. split.
  - intros ((a & b) & He & Hj). cbn [fst snd] in Hj. apply in_app_or in Hj. destruct Hj as [Hj|Hj].
    + destruct (Nat.eqb_spec a i); [|destruct Hj]. destruct Hj as [<-|[]]. subst. now left.
    + destruct (Nat.eqb_spec b i); [|destruct Hj]. destruct Hj as [<-|[]]. subst. now right.
  - intros [H|H]; [exists (i, j)|exists (j, i)]; (split; [exact H|]); cbn [fst snd]; apply in_or_app;
      rewrite Nat.eqb_refl; [left|right]; now left.
Qed.

Lemma rng_edges_In dist i j : In (i, j) (rng_edges dist) <-> (i < j < length dist)%nat /\
  forall k, (k < length dist)%nat -> ~ (entry dist i k < entry dist i j /\ entry dist j k < entry dist i j).
Proof.
  unfold rng_edges. rewrite in_flat_map. split.
  - intros (a & Ha & H). apply in_flat_map in H. destruct H as (b & Hb & H).
    apply in_seq in Ha. apply in_seq in Hb. destruct (existsb _ _) eqn:E; [destruct H|].
    destruct H as [H|[]]. injection H as -> ->. split; [lia|]. intros k Hk (A & B).
    assert (true = false); [|discriminate]. rewrite <- E. symmetry. apply existsb_exists. exists k.
    split; [apply in_seq; lia|]. apply andb_true_iff. split; now apply Qlt_bool_iff.
  - intros (L & H). exists i. split; [apply in_seq; lia|]. apply in_flat_map. exists j. split; [apply in_seq; lia|].
    destruct (existsb _ _) eqn:E; [|now left]. exfalso. apply existsb_exists in E. destruct E as (k & Hk & E).
    apply in_seq in Hk. apply andb_true_iff in E. destruct E as [A B]. apply Qlt_bool_iff in A. apply Qlt_bool_iff in B.
    apply (H k); [lia|]. auto.
Qed.

Lemma rng_neighbours dist : (forall i j, entry dist i j == entry dist j i) -> forall i j,
  In j (neighbours_of (rng_edges dist) i) <->
  i <> j /\ (i < length dist)%nat /\ (j < length dist)%nat /\
  forall k, (k < length dist)%nat -> ~ (entry dist i k < entry dist i j /\ entry dist j k < entry dist i j).
Proof.
  intros Sy i j. rewrite neighbours_In, !rng_edges_In. split.
  - intros [(L & H)|(L & H)]; (split; [lia|]); (split; [lia|]); (split; [lia|]); [exact H|].
    intros k Hk (A & B). rewrite (Sy i j) in A, B. apply (H k Hk). auto.
  - intros (N & Li & Lj & H). destruct (lt_dec i j) as [G|G]; [left|right]; (split; [lia|]); [exact H|].
    intros k Hk (A & B). rewrite (Sy j i) in A, B. apply (H k Hk). auto.
Qed.

(* ----- kNN graph ----- *)
Lemma knn_edges_In argsort dist k i j : In (i, j) (knn_edges argsort dist k) <->
  (i < length dist)%nat /\ In j (firstn (Z.to_nat (Z.max 1 (Z.min k (Z.max 0 (lenZ dist - 1))))) (skipn 1 (argsort (nth i dist [])))).
Proof.
  unfold knn_edges. rewrite in_flat_map. split.
  - intros (a & Ha & H). apply in_seq in Ha. apply in_map_iff in H. destruct H as (b & E & Hb). injection E as -> ->. split; [lia|exact Hb].
  - intros (L & H). exists i. split; [apply in_seq; lia|]. apply in_map_iff. eauto.
Qed.

Lemma first_is_self argsort keys i : sorts_positions argsort -> (i < length keys)%nat ->
  (forall j, (j < length keys)%nat -> j <> i -> nth i keys 0 < nth j keys 0) ->
  exists rest, argsort keys = i :: rest.
Proof.
  intros So Hi Min. destruct (So keys) as [P S]. destruct (argsort keys) as [|a rest] eqn:E.
  - apply Permutation_length in P. rewrite seq_length in P. cbn in P. lia.
  - exists rest. f_equal. destruct (Nat.eq_dec a i) as [|Ne]; [assumption|exfalso].
    assert (I : In i (a :: rest)) by (apply (perm_In _ _ i P), in_seq; lia).
    destruct I as [|I]; [congruence|]. apply (In_nth _ _ 0%nat) in I. destruct I as (p & Lp & Ep).
    assert (Ln : length (a :: rest) = length keys) by (rewrite (Permutation_length P); apply seq_length). cbn [length] in Ln.
    specialize (S 0%nat (Datatypes.S p) ltac:(lia)). cbn [nth] in S. rewrite Ep in S.
    assert (La : (a < length keys)%nat). { assert (In a (seq 0 (length keys))) by (apply (perm_In _ _ a P); now left). apply in_seq in H. lia. }
    specialize (Min a La Ne). lra.
Qed.

(* the k nearest other points of point i *)
Notation nearest_others dist := (nearest_points (entry dist) (length dist)).

Lemma order_tail_nearest argsort dist k i : sorts_positions argsort -> (1 <= k)%Z -> (i < length dist)%nat ->
  length (nth i dist []) = length dist ->
  (forall j, (j < length dist)%nat -> j <> i -> entry dist i i < entry dist i j) ->
  nearest_others dist (Z.to_nat k) i (firstn (Z.to_nat (Z.max 1 (Z.min k (Z.max 0 (lenZ dist - 1))))) (skipn 1 (argsort (nth i dist [])))).
Proof.
  intros So Hk Hi Lr Min. destruct (first_is_self argsort (nth i dist []) i So) as (rest & E); [lia|rewrite Lr; exact Min|].
  destruct (So (nth i dist [])) as [P S]. rewrite E in *. cbn [skipn]. rewrite Lr in *.
  assert (Ln : Datatypes.S (length rest) = length dist) by (pose proof (Permutation_length P) as L; rewrite seq_length in L; exact L).
  assert (ND : NoDup (i :: rest)) by (apply (NoDup_perm _ _ (Permutation_sym P)), seq_NoDup).
  inversion ND as [|? ? N1 N2]; subst.
  assert (Ik : forall n, (Nat.min n (length rest) = Nat.min (Nat.min n (length rest)) (length rest))%nat) by lia.
  set (K := Z.to_nat (Z.max 1 (Z.min k (Z.max 0 (lenZ dist - 1))))).
  assert (LK : length (firstn K rest) = Nat.min (Z.to_nat k) (length dist - 1)).
  { rewrite firstn_length. unfold K, lenZ. lia. }
  pose proof (firstn_skipn K rest) as FS.
  split; [|split; [exact LK|split]].
  - rewrite <- FS in N2. apply NoDup_app_iff in N2. tauto.
  - intros a Ha. assert (In a rest) by (rewrite <- FS; apply in_or_app; now left).
    split; [|intros ->; contradiction]. assert (In a (seq 0 (length dist))) by (apply (perm_In _ _ a P); now right). apply in_seq in H0. lia.
  - intros a b Ha Hb Nb Hn. assert (Ib : In b rest). { assert (H : In b (i :: rest)) by (apply (perm_In _ _ b P), in_seq; lia). destruct H; [congruence|assumption]. }
    rewrite <- FS in Ib. apply in_app_or in Ib. destruct Ib as [Ib|Ib]; [contradiction|].
    apply (In_nth _ _ 0%nat) in Ha. destruct Ha as (p & Lp & Ep). apply (In_nth _ _ 0%nat) in Ib. destruct Ib as (q & Lq & Eq).
    rewrite skipn_length in Lq. rewrite firstn_length in Lp.
    assert (Ep' : nth (Datatypes.S p) (i :: rest) 0%nat = a). { cbn [nth]. rewrite <- FS, app_nth1 by (rewrite firstn_length; lia). exact Ep. }
    assert (Eq' : nth (Datatypes.S (K + q)) (i :: rest) 0%nat = b).
    { cbn [nth]. rewrite <- FS, app_nth2 by (rewrite firstn_length; lia). rewrite firstn_length. replace (K + q - Nat.min K (length rest))%nat with q by lia. exact Eq. }
    specialize (S (Datatypes.S p) (Datatypes.S (K + q)) ltac:(lia)). rewrite Ep', Eq' in S. exact S.
Qed.

Lemma knn_neighbours argsort dist k : sorts_positions argsort -> (1 <= k)%Z ->
  (forall i, (i < length dist)%nat -> length (nth i dist []) = length dist) ->
  (forall i j, (i < length dist)%nat -> (j < length dist)%nat -> j <> i -> entry dist i i < entry dist i j) ->
  exists near, (forall i, (i < length dist)%nat -> nearest_others dist (Z.to_nat k) i (near i)) /\
    forall i j, In j (neighbours_of (knn_edges argsort dist k) i) <->
      (i < length dist)%nat /\ (j < length dist)%nat /\ (In j (near i) \/ In i (near j)).
Proof.
  intros So Hk Sq Min.
  exists (fun i => firstn (Z.to_nat (Z.max 1 (Z.min k (Z.max 0 (lenZ dist - 1))))) (skipn 1 (argsort (nth i dist [])))).
  assert (N : forall i, (i < length dist)%nat -> nearest_others dist (Z.to_nat k) i (firstn (Z.to_nat (Z.max 1 (Z.min k (Z.max 0 (lenZ dist - 1))))) (skipn 1 (argsort (nth i dist []))))).
  { intros i Hi. apply order_tail_nearest; auto. }
  split; [exact N|]. intros i j. rewrite neighbours_In, !knn_edges_In. split.
  - intros [(L & H)|(L & H)].
    + split; [exact L|]. destruct (N i L) as (_ & _ & R & _). split; [now apply R|now left].
    + destruct (N j L) as (_ & _ & R & _). split; [now apply R|]. split; [exact L|now right].
  - intros (Li & Lj & [H|H]); [left|right]; auto.
Qed.

(* ----- the filter ----- *)
Lemma sq_lt a b : 0 <= a -> a < b -> a * a < b * b.
Proof. intros. nra. Qed.
Lemma Qmul_nonneg a b : 0 <= a -> 0 <= b -> 0 <= a * b.
Proof. intros. nra. Qed.
Lemma Qle_sq_cancel k a b : 0 < k -> k * a <= k * b -> a <= b.
Proof. intros. nra. Qed.
Lemma Qlt_sq_cancel k a b : 0 < k -> k * a < k * b -> a < b.
Proof. intros. nra. Qed.

Lemma below_bound_iff o mu z v : 0 < v -> (below_bound o mu z v = true <-> within_root o mu z v).
Proof.
  intros V. unfold below_bound, within_root. cbv zeta.
  destruct (Qle_bool 0 z) eqn:Ez.
  - apply Qle_bool_iff in Ez. rewrite orb_true_iff, !Qle_bool_iff. split.
    + intros H s Hs Hv _. specialize (Hv Ez). destruct H as [H|H]; [nra|].
      destruct (Qlt_le_dec (mu + z * s) o) as [G|G]; [exfalso|exact G].
      assert (A : (z * s) * (z * s) < (o - mu) * (o - mu)) by (apply sq_lt; [now apply Qmul_nonneg|lra]).
      assert (B : 0 <= (z * z) * (s * s - v)) by (apply Qmul_nonneg; [now apply Qmul_nonneg|lra]). nra.
    + intros H. destruct (Qlt_le_dec 0 (o - mu)) as [E|E]; [|left; exact E]. right.
      apply Qnot_lt_le. intros C.
      destruct (Qlt_le_dec 0 z) as [Zp|Z0].
      * set (q := (o - mu) / z). assert (Eq : q * z == o - mu) by (unfold q; field; lra).
        assert (Qp : 0 < q) by (unfold q; apply Qlt_shift_div_l; lra).
        assert (Qv : v < q * q). { assert (z * z * v < (q * z) * (q * z)) by (rewrite Eq; exact C). nra. }
        set (s := (q + v / q) / 2).
        assert (Es : s * (2 * q) == q * q + v) by (unfold s; field; lra).
        assert (Sp : 0 < s) by nra.
        assert (Sv : v <= s * s). { assert (4 * (q * q) * v <= (s * (2 * q)) * (s * (2 * q))) by (rewrite Es; nra). nra. }
        assert (Sq : s < q) by nra.
        specialize (H s ltac:(lra) ltac:(intros; exact Sv) ltac:(intros; lra)). nra.
      * specialize (H (v + 1) ltac:(lra) ltac:(intros; nra) ltac:(intros; lra)). nra.
  - assert (Zn : z < 0). { apply Qnot_le_lt. intros H. apply Qle_bool_iff in H. congruence. }
    rewrite andb_true_iff, !Qle_bool_iff. split.
    + intros [H1 H2] s Hs _ Hv. specialize (Hv Zn).
      destruct (Qlt_le_dec (mu + z * s) o) as [G|G]; [exfalso|exact G].
      assert (A : (mu - o) * (mu - o) < (- z * s) * (- z * s)) by (apply sq_lt; lra).
      assert (B : 0 <= (z * z) * (v - s * s)) by (apply Qmul_nonneg; [nra|lra]). nra.
    + intros H. assert (E : o - mu <= 0).
      { specialize (H 0 ltac:(lra) ltac:(intros; lra) ltac:(intros; lra)). lra. }
      split; [exact E|]. apply Qnot_lt_le. intros C.
      set (q := (o - mu) / z). assert (Eq : q * z == o - mu) by (unfold q; field; lra).
      assert (Qp : 0 <= q) by nra.
      assert (Qv : q * q < v). { assert ((q * z) * (q * z) < z * z * v) by (rewrite Eq; exact C). nra. }
      destruct (Qlt_le_dec 0 q) as [Qpp|Q0].
      * set (s := 2 * v * q / (q * q + v)).
        assert (Dp : 0 < q * q + v) by nra.
        assert (Es : s * (q * q + v) == 2 * v * q) by (unfold s; field; lra).
        assert (Sp : 0 < s) by nra.
        assert (Sq : q < s) by nra.
        assert (Sv : s * s <= v).
        { assert (A : (s * (q * q + v)) * (s * (q * q + v)) <= v * ((q * q + v) * (q * q + v))) by (rewrite Es; assert (0 <= v * ((q * q - v) * (q * q - v))) by (apply Qmul_nonneg; [lra|nra]); lra).
          assert (B : 0 < (q * q + v) * (q * q + v)) by nra. set (D := (q * q + v) * (q * q + v)) in *.
          assert (A' : (s * s) * D <= v * D) by (unfold D in *; lra). clearbody D.
          apply Qmult_lt_0_le_reg_r with D; assumption. }
        specialize (H s ltac:(lra) ltac:(intros; lra) ltac:(intros; exact Sv)). nra.
      * assert (q == 0) by lra. assert (E0 : o == mu) by nra.
        set (s := if Qlt_le_dec v 1 then v else 1).
        assert (S1 : 0 < s /\ s * s <= v) by (unfold s; destruct (Qlt_le_dec v 1); split; nra). destruct S1 as [S1 S2]. clearbody s.
        specialize (H s ltac:(lra) ltac:(intros; lra) ltac:(intros; exact S2)). nra.
Qed.

Lemma within_root_zero o mu z v : v == 0 -> (within_root o mu z v <-> o <= mu).
Proof.
  intros V. unfold within_root. split.
  - intros H. specialize (H 0 ltac:(lra) ltac:(intros; lra) ltac:(intros; lra)). lra.
  - intros H s Hs _ Hv. destruct (Qlt_le_dec z 0) as [Z0|Z0]; [|nra]. specialize (Hv Z0). nra.
Qed.

Lemma total_perm (w : nat -> Q) a b : Permutation a b -> total (map w a) == total (map w b).
Proof. intros P. apply Qsum_perm. now apply Permutation_map. Qed.

Lemma within_root_ext o mu z v o' : o == o' -> (within_root o mu z v <-> within_root o' mu z v).
Proof. intros E. unfold within_root. split; intros H s A B C; [rewrite <- E|rewrite E]; auto. Qed.

Lemma setred_keep_spec nbrs dist mode eps z prob y i : NoDup nbrs -> 0 <= prob (nth i y 0%Z) <= 1 ->
  (setred_keep nbrs dist mode eps z prob y i = true <->
   passes_cut_edge_test nbrs (fun j => edge_weight mode eps (entry dist i j)) y i (prob (nth i y 0%Z)) z).
Proof.
  intros ND Hp. unfold setred_keep, passes_cut_edge_test. destruct nbrs as [|n0 nb] eqn:En; [split; auto|]. rewrite <- En in *.
  set (w := fun j => edge_weight mode eps (entry dist i j)). set (p := prob (nth i y 0%Z)) in *.
  set (ot := filter (fun j => negb (nth j y 0 =? nth i y 0)%Z) nbrs).
  assert (V : 0 <= p * (1 - p) * total (map (fun j => w j * w j) nbrs)).
  { assert (0 <= total (map (fun j => w j * w j) nbrs)).
    { apply Qsum_nonneg. intros x Hx. apply in_map_iff in Hx. destruct Hx as (j & <- & _). nra. }
    assert (0 <= p * (1 - p)) by nra. nra. }
  set (v := p * (1 - p) * total (map (fun j => w j * w j) nbrs)) in *.
  change (Qsum (map (fun j => w j * w j) nbrs)) with (total (map (fun j => w j * w j) nbrs)). fold v.
  change (Qsum (map w nbrs)) with (total (map w nbrs)). change (Qsum (map w ot)) with (total (map w ot)).
  assert (T : (if Qle_bool v 0 then Qle_bool (total (map w ot)) ((1 - p) * total (map w nbrs)) else below_bound (total (map w ot)) ((1 - p) * total (map w nbrs)) z v) = true
     <-> within_root (total (map w ot)) ((1 - p) * total (map w nbrs)) z v).
  { destruct (Qle_bool v 0) eqn:E0.
    - apply Qle_bool_iff in E0. rewrite Qle_bool_iff, within_root_zero by lra. reflexivity.
    - apply below_bound_iff. apply Qnot_le_lt. intros H. apply Qle_bool_iff in H. congruence. }
  assert (OI : forall j, In j ot <-> In j nbrs /\ nth j y 0%Z <> nth i y 0%Z).
  { intros j. unfold ot. rewrite filter_In, negb_true_iff, Z.eqb_neq. reflexivity. }
  assert (ON : NoDup ot) by now apply NoDup_filter.
  etransitivity; [exact T|]. clearbody ot. split.
  - intros H. right. exists ot. split; [exact OI|]. split; [exact ON|exact H].
  - intros [H|(other & HI & HN & H)]; [rewrite En in H; discriminate|].
    revert H. apply within_root_ext. apply total_perm. apply NoDup_Permutation; auto. intros j. rewrite HI, OI. reflexivity.
Qed.

Lemma neighbours_NoDup edges i : NoDup (neighbours_of edges i).
Proof. apply StronglySorted_lt_NoDup, sorted_set_sorted. Qed.
