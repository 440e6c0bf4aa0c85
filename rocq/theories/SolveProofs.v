(* A square linear system has a solution when its transpose is injective: conjugate gradient on A A^T. *)
From Coq Require Import QArith Qminmax Qabs Lqa ZifyBool ZifyNat.
From Verif Require Import Prelude ListFacts QFacts TransModel TransSpec TransProofs CgProofs.
Local Open Scope Q_scope.
Local Open Scope list_scope.
Local Notation length := List.length.

Section Solvable.
Variable n : nat.
Variable M : nat -> nat -> Q.
Definition sumn (f : nat -> Q) : Q := Qsum (map f (seq 0 n)).
Definition mv (x : nat -> Q) (i : nat) : Q := sumn (fun j => M i j * x j).
Definition mtv (x : nat -> Q) (j : nat) : Q := sumn (fun i => M i j * x i).
Definition gram (x : vec) : vec := map (mv (mtv (fun i => nth i x 0))) (seq 0 n).
Lemma sumn_ext f g : (forall i, (i < n)%nat -> f i == g i) -> sumn f == sumn g.
Proof. intros H. apply Qsum_ext. intros i Hi. apply in_seq in Hi. apply H. lia. Qed.
Lemma sumn_lin f g a : sumn (fun i => f i + a * g i) == sumn f + a * sumn g.
Proof. unfold sumn. rewrite Qsum_plus, Qsum_scale. reflexivity. Qed.
Lemma mv_lin x y a i : mv (fun j => x j + a * y j) i == mv x i + a * mv y i.
Proof. unfold mv. rewrite <- sumn_lin. apply sumn_ext. intros. ring. Qed.
Lemma mtv_lin x y a i : mtv (fun j => x j + a * y j) i == mtv x i + a * mtv y i.
Proof. unfold mtv. rewrite <- sumn_lin. apply sumn_ext. intros. ring. Qed.
Lemma mv_ext x y i : (forall j, (j < n)%nat -> x j == y j) -> mv x i == mv y i.
Proof. intros H. apply sumn_ext. intros j Hj. rewrite (H j Hj). reflexivity. Qed.
Lemma mtv_ext x y i : (forall j, (j < n)%nat -> x j == y j) -> mtv x i == mtv y i.
Proof. intros H. apply sumn_ext. intros j Hj. rewrite (H j Hj). reflexivity. Qed.
Lemma gram_length x : length (gram x) = n.
Proof. unfold gram. now rewrite map_length, seq_length. Qed.
Lemma gram_nth x i : (i < n)%nat -> nth i (gram x) 0 = mv (mtv (fun i => nth i x 0)) i.
Proof. intros Hi. unfold gram. rewrite nth_map_in with (da := 0%nat) by (rewrite seq_length; exact Hi). rewrite seq_nth by exact Hi. reflexivity. Qed.
Lemma gram_linear : linear n gram.
Proof.
  split; [intros; apply gram_length|]. intros x p a Hx Hp. assert (HL : length (vscale a p) = n) by (rewrite vscale_length; exact Hp). assert (HL2 : length (vscale a (gram p)) = n) by (rewrite vscale_length; apply gram_length).
  split; [rewrite vadd_length by (rewrite gram_length; now symmetry); rewrite !gram_length; reflexivity|]. intros i.
  rewrite vadd_nth by (rewrite gram_length; now symmetry). rewrite vscale_nth. destruct (Nat.lt_ge_cases i n) as [Hi|Hi].
  - rewrite !gram_nth by exact Hi. rewrite <- mv_lin. apply mv_ext. intros j Hj. rewrite <- mtv_lin. apply mtv_ext. intros l Hl. rewrite vadd_nth by (rewrite HL; exact Hx). rewrite vscale_nth. reflexivity.
  - rewrite !nth_overflow by (rewrite gram_length; exact Hi). ring.
Qed.
Lemma dot_gram x y : length x = n -> length y = n -> dot x (gram y) == sumn (fun j => mtv (fun i => nth i x 0) j * mtv (fun i => nth i y 0) j).
Proof.
  intros Hx Hy. rewrite (dot_sum _ _ n Hx (gram_length y)). fold (sumn (fun i => nth i x 0 * nth i (gram y) 0)).
  transitivity (sumn (fun i => sumn (fun j => nth i x 0 * (M i j * mtv (fun i => nth i y 0) j)))).
  - apply sumn_ext. intros i Hi. rewrite gram_nth by exact Hi. unfold mv, sumn. rewrite <- Qsum_scale. reflexivity.
  - unfold sumn at 1 2. rewrite Qsum_swap. apply Qsum_ext. intros j _. unfold mtv at 2, sumn. rewrite <- Qsum_scale_r. apply Qsum_ext. intros i _. ring.
Qed.
Lemma gram_positive : (forall z, (forall j, (j < n)%nat -> mtv z j == 0) -> forall i, (i < n)%nat -> z i == 0) -> positive_definite n gram.
Proof.
  intros Hinj. split.
  - intros x y Hx Hy. rewrite (dot_comm n (gram x) y (gram_length x) Hy), !dot_gram by assumption. apply sumn_ext. intros. ring.
  - intros x Hx [i Hi]. rewrite dot_gram by assumption. set (t := mtv (fun i => nth i x 0)). assert (H0 : forall q : Q, 0 <= q * q) by (intros; nra).
    assert (HP : 0 <= sumn (fun j => t j * t j)) by (apply Qsum_nonneg; intros q Hq; apply in_map_iff in Hq as (j & <- & _); apply H0).
    destruct (Qlt_le_dec 0 (sumn (fun j => t j * t j))) as [|Hle]; [assumption|exfalso]. apply Hi. destruct (Nat.lt_ge_cases i n) as [Hl|Hl]; [|rewrite nth_overflow by lia; reflexivity].
    apply (Hinj (fun i => nth i x 0)); [|exact Hl]. intros j Hj. fold t. assert (Hz : t j * t j == 0).
    { apply (Qsum_zero_inv (map (fun j => t j * t j) (seq 0 n))); [intros q Hq; apply in_map_iff in Hq as (l & <- & _); apply H0|unfold sumn in *; lra|]. apply in_map_iff. exists j. split; [reflexivity|apply in_seq; lia]. }
    nra.
Qed.
Lemma transpose_solvable b : (forall z, (forall j, (j < n)%nat -> mtv z j == 0) -> forall i, (i < n)%nat -> z i == 0) -> exists x, forall i, (i < n)%nat -> mv x i == b i.
Proof.
  intros Hinj. set (bv := map b (seq 0 n)). assert (HB : length bv = n) by (unfold bv; rewrite map_length, seq_length; reflexivity).
  destruct (cg_solve gram 0 bv None (Z.of_nat n)) as [z info] eqn:Ex.
  destruct (cg_ok n _ gram_linear bv HB 0 None _ z info ltac:(discriminate) Ex) as (Hz & _).
  destruct (cg_converges n _ gram_linear bv HB 0 (gram_positive Hinj) ltac:(lra) None (Z.of_nat n) z info ltac:(discriminate) ltac:(lia) Ex) as (_ & _ & Hres).
  exists (mtv (fun i => nth i z 0)). intros i Hi. unfold residual2 in Hres. assert (HL : length (vsub bv (gram z)) = n) by (rewrite vsub_length; [exact HB|rewrite gram_length; exact HB]).
  assert (Hd0 : dot (vsub bv (gram z)) (vsub bv (gram z)) == 0) by (pose proof (dot_pos (vsub bv (gram z))); lra).
  assert (Hz0 := dot_zero n _ HL Hd0 i). rewrite vsub_nth in Hz0 by (rewrite gram_length; exact HB). rewrite gram_nth in Hz0 by exact Hi.
  assert (Hb : nth i bv 0 = b i) by (unfold bv; rewrite nth_map_in with (da := 0%nat) by (rewrite seq_length; exact Hi); rewrite seq_nth by exact Hi; reflexivity). rewrite Hb in Hz0. lra.
Qed.
End Solvable.
