From Coq Require Import QArith Qminmax Permutation Lqa Lia ZifyBool ZifyNat.
From Verif Require Import Prelude QFacts DeepBatchModel DeepBatchSpec DeepBatchProofs DeepLossModel DeepLossSpec DeepLossProofs CoMatchModel CoMatchSpec CoMatchProofs DasoModel DasoSpec DasoProofs ClrModel ClrSpec ClrProofs ClrFitProofs.
Local Open Scope Z_scope.
Local Open Scope Q_scope.
Local Open Scope list_scope.

Section Loss.
Variable lse : list Q -> Q.
Variable norm : list Q -> Q.
Hypothesis OKE : lse_ok lse.

(* the similarities as the code computes them are those of the specification *)
Lemma similarity_alike t (z : list (list Q)) i j : similarity norm t z i j = alike norm t z i j.
Proof. unfold similarity, alike, cosine. now rewrite !unit_scaled. Qed.
Lemma partner n i : (i < 2 * n)%nat -> nth i (map (fun i => (i + n)%nat) (seq 0 n) ++ seq 0 n) 0%nat = other_view n i.
Proof.
  intros I. unfold other_view. destruct (Nat.ltb_spec i n).
  - rewrite app_nth1 by (rewrite map_length, seq_length; lia). rewrite (nth_map (fun i => (i + n)%nat) _ i 0%nat) by (rewrite seq_length; lia). rewrite seq_nth by lia. lia.
  - rewrite app_nth2 by (rewrite map_length, seq_length; lia). rewrite map_length, seq_length, seq_nth by lia. lia.
Qed.
Lemma other_lt n i : (i < 2 * n)%nat -> (other_view n i < 2 * n)%nat.
Proof. unfold other_view. destruct (Nat.ltb_spec i n); lia. Qed.

Lemma nt_xent_value w t n z : 0 < t -> (0 < n)%nat -> table (2 * n) w z ->
  exists v, nt_xent lse norm t z = Ok v /\ average (map (contrast_row lse norm t n z) (seq 0 (2 * n))) v.
Proof.
  intros T N TB. pose proof (proj1 TB) as L. unfold nt_xent. rewrite L.
  rewrite (proj2 (qle_false t 0) T). rewrite (proj2 (Nat.ltb_ge (2 * n) 2)) by lia. replace (2 * n)%nat with (n * 2)%nat by lia. rewrite Nat.mod_mul by lia. cbn [orb negb Nat.eqb].
  rewrite Nat.div_mul by lia. replace (n * 2)%nat with (2 * n)%nat by lia.
  eexists. split; [reflexivity|].
  set (pos := map (fun i => (i + n)%nat) (seq 0 n) ++ seq 0 n). set (sim := map (fun i => map (similarity norm t z i) (seq 0 (2 * n))) (seq 0 (2 * n))).
  assert (LP : length pos = (2 * n)%nat) by (unfold pos; rewrite app_length, map_length, seq_length; lia).
  rewrite (zipw_seq _ (seq 0 (2 * n)) pos 0%nat 0%nat) by (rewrite seq_length; lia). rewrite seq_length.
  match goal with |- average _ (- Qmean ?v) => set (vals := v) end.
  assert (NE : vals <> []) by (apply ne_of_length; unfold vals; rewrite map_length, seq_length; lia).
  assert (E : Qsum (map (contrast_row lse norm t n z) (seq 0 (2 * n))) == - Qsum vals).
  { setoid_replace (- Qsum vals) with ((-1) * Qsum vals) by ring. unfold vals.
    rewrite <- Qsum_scale. apply Qsum_ext. intros i I. apply in_seq in I. cbv beta. rewrite seq_nth by lia. cbn [plus].
    unfold sim. rewrite (nth_map (fun i => map (similarity norm t z i) (seq 0 (2 * n))) _ i 0%nat) by (rewrite seq_length; lia). rewrite seq_nth by lia. cbn [plus].
    rewrite (nth_map (similarity norm t z i) _ (nth i pos 0%nat) 0%nat) by (rewrite seq_length; unfold pos; rewrite partner by lia; apply other_lt; lia).
    unfold pos. rewrite partner by lia. pose proof (other_lt n i ltac:(lia)). rewrite seq_nth by lia. cbn [plus]. unfold contrast_row.
    change (similarity norm t z i) with (alike norm t z i). ring. }
  pose proof (average_mean vals NE) as (A & _). split.
  - rewrite E. unfold lenZ in *. rewrite map_length, seq_length. unfold vals in A at 2. rewrite map_length, seq_length in A. rewrite <- A. ring.
  - intros Z0. apply (f_equal (@length _)) in Z0. rewrite map_length, seq_length in Z0. cbn in Z0. lia.
Qed.

(* renumbering the rows without separating the two views changes nothing *)
Lemma contrast_renumber t n z p : length p = (2 * n)%nat -> Permutation p (seq 0 (2 * n)) -> (forall i, (i < 2 * n)%nat -> nth (other_view n i) p 0%nat = other_view n (nth i p 0%nat)) ->
  length z = (2 * n)%nat ->
  Qsum (map (contrast_row lse norm t n (pick z p)) (seq 0 (2 * n))) == Qsum (map (contrast_row lse norm t n z) (seq 0 (2 * n))).
Proof.
  intros LP P C L.
  assert (PI : forall i, (i < 2 * n)%nat -> (nth i p 0%nat < 2 * n)%nat).
  { intros i I. assert (In (nth i p 0%nat) (seq 0 (2 * n))) by (apply (Permutation_in _ P), nth_In; lia). apply in_seq in H. lia. }
  assert (INJ : forall i j, (i < 2 * n)%nat -> (j < 2 * n)%nat -> Nat.eqb (nth i p 0%nat) (nth j p 0%nat) = Nat.eqb i j).
  { intros i j I J. destruct (Nat.eqb_spec i j) as [->|NE]; [apply Nat.eqb_refl|]. apply Nat.eqb_neq. intros X. apply NE.
    apply (proj1 (NoDup_nth p 0%nat) (Permutation_NoDup (Permutation_sym P) (seq_NoDup (2 * n) 0)) i j); try lia; exact X. }
  assert (AL : forall i j, (i < 2 * n)%nat -> (j < 2 * n)%nat -> alike norm t (pick z p) i j = alike norm t z (nth i p 0%nat) (nth j p 0%nat)).
  { intros i j I J. unfold alike. rewrite INJ by assumption. unfold pick. now rewrite !(nth_map (fun i => nth i z []) p _ 0%nat) by lia. }
  rewrite (Qsum_ext _ (fun i => contrast_row lse norm t n z (nth i p 0%nat))).
  - rewrite <- (map_map (fun i => nth i p 0%nat) (contrast_row lse norm t n z)). replace (map (fun i => nth i p 0%nat) (seq 0 (2 * n))) with p by (symmetry; rewrite <- LP; apply nth_seq).
    apply Qsum_perm. now apply Permutation_map.
  - intros i I. apply in_seq in I. unfold contrast_row. rewrite AL by (try apply other_lt; lia). rewrite C by lia.
    assert (E : lse (map (alike norm t (pick z p) i) (seq 0 (2 * n))) == lse (map (alike norm t z (nth i p 0%nat)) (seq 0 (2 * n)))).
    { rewrite (map_ext_in _ (fun j => alike norm t z (nth i p 0%nat) (nth j p 0%nat))) by (intros j J; apply in_seq in J; apply AL; lia).
      rewrite <- (map_map (fun j => nth j p 0%nat) (alike norm t z (nth i p 0%nat))). replace (map (fun j => nth j p 0%nat) (seq 0 (2 * n))) with p by (symmetry; rewrite <- LP; apply nth_seq).
      apply OKE. now apply Permutation_map. }
    rewrite E. reflexivity.
Qed.
Lemma average_unique_sum a b va vb : average a va -> average b vb -> length a = length b -> a <> [] -> Qsum a == Qsum b -> va == vb.
Proof.
  intros (A & _) (B & _) L N S0. rewrite S0, <- B in A. unfold lenZ in A. rewrite L in A.
  apply (Qmult_inj_r _ _ (inject_Z (Z.of_nat (length b)))); [|exact A]. destruct a; [easy|]. cbn [length] in L. rewrite <- L. unfold inject_Z, Qeq. cbn. lia.
Qed.
Lemma contrast_same w t n z p v v' : 0 < t -> (0 < n)%nat -> table (2 * n) w z -> length p = (2 * n)%nat -> Permutation p (seq 0 (2 * n)) ->
  (forall i, (i < 2 * n)%nat -> nth (other_view n i) p 0%nat = other_view n (nth i p 0%nat)) ->
  nt_xent lse norm t z = Ok v -> nt_xent lse norm t (pick z p) = Ok v' -> v' == v.
Proof.
  intros T N TB LP P C E E'. destruct (nt_xent_value w t n z T N TB) as (v1 & E1 & A1).
  assert (TB' : table (2 * n) w (pick z p)).
  { unfold pick. split; [now rewrite map_length|]. intros r I. apply in_map_iff in I. destruct I as (i & <- & I). apply (Permutation_in _ P), in_seq in I. apply TB, nth_In. rewrite (proj1 TB). lia. }
  destruct (nt_xent_value w t n _ T N TB') as (v2 & E2 & A2).
  assert (v1 = v) by congruence. assert (v2 = v') by congruence. subst.
  eapply average_unique_sum; [exact A2|exact A1|now rewrite !map_length| |].
  - apply ne_of_length. rewrite map_length, seq_length. lia.
  - apply contrast_renumber; try assumption. apply TB.
Qed.

Lemma table_app n w a b : table n w a -> table n w b -> table (2 * n) w (a ++ b).
Proof. intros (A1 & A2) (B1 & B2). split; [rewrite app_length; lia|]. intros r I. apply in_app_or in I. destruct I; auto. Qed.
Lemma swap_pick {A} (a b : list (list A)) n : length a = n -> length b = n -> b ++ a = pick (a ++ b) (seq n n ++ seq 0 n).
Proof.
  intros La Lb. unfold pick. rewrite map_app. f_equal.
  - rewrite <- (map_nth_seq n n (fun i => nth i (a ++ b) [])) || idtac.
    transitivity (map (fun i => nth i b []) (seq 0 n)); [rewrite <- Lb; symmetry; apply nth_seq|].
    replace (seq n n) with (map (fun i => (i + n)%nat) (seq 0 n)) by (clear; induction n as [|m IH]; [reflexivity|]; apply (nth_ext _ _ 0%nat 0%nat); [now rewrite map_length, !seq_length|];
       intros i I; rewrite map_length, seq_length in I; rewrite (nth_map (fun i => (i + S m)%nat) _ i 0%nat) by (rewrite seq_length; lia); rewrite !seq_nth by lia; lia).
    rewrite map_map. apply map_ext_in. intros i I. apply in_seq in I. rewrite app_nth2 by lia. f_equal. lia.
  - transitivity (map (fun i => nth i a []) (seq 0 n)); [rewrite <- La; symmetry; apply nth_seq|].
    apply map_ext_in. intros i I. apply in_seq in I. now rewrite app_nth1 by lia.
Qed.
Lemma order_pick {A} (a b : list (list A)) n o : length a = n -> length b = n -> Permutation o (seq 0 n) -> pick a o ++ pick b o = pick (a ++ b) (o ++ map (fun i => (i + n)%nat) o).
Proof.
  intros La Lb P. unfold pick. rewrite map_app, map_map. f_equal; apply map_ext_in; intros i I; apply (Permutation_in _ P), in_seq in I.
  - now rewrite app_nth1 by lia.
  - rewrite app_nth2 by lia. f_equal. lia.
Qed.
Lemma shift_seq n s : map (fun i => (i + n)%nat) (seq s n) = seq (s + n) n.
Proof.
  apply (nth_ext _ _ 0%nat 0%nat); [now rewrite map_length, !seq_length|]. intros i I. rewrite map_length, seq_length in I.
  rewrite (nth_map (fun i => (i + n)%nat) _ i 0%nat) by (rewrite seq_length; lia). rewrite !seq_nth by lia. lia.
Qed.
Lemma contrast_views w t n a b v v' : 0 < t -> (0 < n)%nat -> table n w a -> table n w b -> nt_xent lse norm t (a ++ b) = Ok v -> nt_xent lse norm t (b ++ a) = Ok v' -> v' == v.
Proof.
  intros T N TA TB E E'. rewrite (swap_pick a b n (proj1 TA) (proj1 TB)) in E'.
  eapply (contrast_same w t n (a ++ b) (seq n n ++ seq 0 n)); try eassumption.
  - now apply table_app.
  - rewrite app_length, !seq_length. lia.
  - replace (2 * n)%nat with (n + n)%nat by lia. rewrite (seq_app n n 0). cbn [plus]. apply Permutation_app_comm.
  - intros i I. assert (X : forall j, (j < 2 * n)%nat -> nth j (seq n n ++ seq 0 n) 0%nat = other_view n j).
    { intros j J. rewrite <- partner by lia. f_equal. f_equal. now rewrite shift_seq. }
    rewrite !X by (try apply other_lt; lia). reflexivity.
Qed.
Lemma contrast_order w t n a b o v v' : 0 < t -> (0 < n)%nat -> table n w a -> table n w b -> Permutation o (seq 0 n) ->
  nt_xent lse norm t (a ++ b) = Ok v -> nt_xent lse norm t (pick a o ++ pick b o) = Ok v' -> v' == v.
Proof.
  intros T N TA TB P E E'. pose proof (Permutation_length P) as LO. rewrite seq_length in LO.
  rewrite (order_pick a b n o (proj1 TA) (proj1 TB) P) in E'.
  eapply (contrast_same w t n (a ++ b) (o ++ map (fun i => (i + n)%nat) o)); try eassumption.
  - now apply table_app.
  - rewrite app_length, map_length. lia.
  - replace (2 * n)%nat with (n + n)%nat by lia. rewrite (seq_app n n 0). cbn [plus]. apply Permutation_app; [exact P|]. rewrite <- (shift_seq n 0) at 1. now apply Permutation_map.
  - assert (OI : forall j, (j < n)%nat -> (nth j o 0%nat < n)%nat). { intros j J. assert (X : In (nth j o 0%nat) (seq 0 n)) by (apply (Permutation_in _ P), nth_In; lia). apply in_seq in X. lia. }
    assert (X : forall j, (j < 2 * n)%nat -> nth j (o ++ map (fun i => (i + n)%nat) o) 0%nat = if Nat.ltb j n then nth j o 0%nat else (nth (j - n) o 0 + n)%nat).
    { intros j J. destruct (Nat.ltb_spec j n); [now rewrite app_nth1 by lia|]. rewrite app_nth2 by lia. rewrite LO. rewrite (nth_map (fun i => (i + n)%nat) o _ 0%nat) by lia. reflexivity. }
    intros i I. rewrite !X by (try apply other_lt; lia). unfold other_view. destruct (Nat.ltb_spec i n).
    + rewrite (proj2 (Nat.ltb_ge (i + n) n)) by lia. rewrite (proj2 (Nat.ltb_lt _ n) (OI i H)). do 2 f_equal. lia.
    + rewrite (proj2 (Nat.ltb_lt (i - n) n)) by lia. rewrite (proj2 (Nat.ltb_ge _ n)) by lia. lia.
Qed.
End Loss.

Lemma distill_value log_softmax t k n ls p : (0 < n)%nat -> table n k ls -> table n k p -> (forall z, length (log_softmax z) = length z) ->
  average (map (fun i => soft_cross_entropy k (nth i p []) (log_softmax (map (fun x => x / t) (nth i ls [])))) (seq 0 n)) (distill_loss log_softmax t ls p).
Proof.
  intros N TL TP LS. unfold distill_loss. pose proof (proj1 TL) as L1. pose proof (proj1 TP) as L2.
  assert (LSc : length (scale t ls) = n) by (unfold scale; now rewrite map_length).
  rewrite (zipw_seq _ p (scale t ls) [] []) by lia. rewrite L2.
  match goal with |- average _ (Qmean ?v) => set (vals := v) end. assert (NE : vals <> []) by (apply ne_of_length; unfold vals; rewrite map_length, seq_length; lia).
  assert (E : map (fun i => soft_cross_entropy k (nth i p []) (log_softmax (map (fun x => x / t) (nth i ls [])))) (seq 0 n) = vals).
  { unfold vals. apply map_ext_in. intros i I. apply in_seq in I. unfold scale. rewrite (nth_map (map (fun x => x / t)) ls i []) by lia. unfold soft_cross_entropy. f_equal. f_equal.
    assert (LI : length (nth i ls []) = k) by (apply TL, nth_In; lia). assert (PI : length (nth i p []) = k) by (apply TP, nth_In; lia).
    rewrite (zipw_seq Qmult _ _ 0 0) by (rewrite LS, map_length; lia). now rewrite PI. }
  rewrite E. now apply average_mean.
Qed.
Lemma predict_fine {X R P} (call : bool -> list X -> option (list R)) (softmax : R -> P) f training xs b : row_wise call f -> (0 < b)%Z ->
  clr_predict call softmax true training xs b = (Ok (map (fun x => softmax (f x)) xs), training).
Proof.
  intros RW B. unfold clr_predict. cbn [negb]. destruct xs as [|x r].
  - unfold py_range. rewrite (proj2 (Z.eqb_neq b 0)), (proj2 (Z.ltb_ge b 0)) by lia. unfold lenZ. cbn [length Z.of_nat]. rewrite Z.div_small by lia. cbn [Z.to_nat seq map]. rewrite (RW []). reflexivity.
  - pose proof (predict_spec call softmax f training (x :: r) b RW B) as S0. unfold predict_proba in S0. cbn [negb] in S0.
    assert (N : (0 < lenZ (x :: r))%Z) by (unfold lenZ; cbn [length]; lia).
    rewrite (py_range_ok (lenZ (x :: r)) b N B) in S0 |- *.
    set (starts := map _ _) in *. assert (NE : starts <> []). { apply ne_of_length. unfold starts. rewrite map_length, seq_length. unfold num_batches. lia. }
    destruct starts as [|s0 sr]; [easy|]. exact S0.
Qed.
