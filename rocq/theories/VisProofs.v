(* Lemmas for the image steps. *)
From Coq Require Import QArith ZifyBool ZifyNat.
From Verif Require Import Prelude VisModel VisSpec.
Local Open Scope nat_scope.
Local Open Scope list_scope.

Lemma memN_In x l : memN x l = true <-> In x l.
Proof.
  unfold memN. rewrite existsb_exists. split.
  - intros (y & Hy & E). apply Nat.eqb_eq in E. congruence.
  - intros H. exists x. split; [exact H|apply Nat.eqb_refl].
Qed.
Lemma memN4 x : memN x [1; 2; 3; 4] = true <-> 1 <= x <= 4.
Proof. rewrite memN_In. cbn. lia. Qed.
Lemma memN3 x : memN x [1; 3; 4] = true <-> 1 <= x <= 4 /\ x <> 2.
Proof. rewrite memN_In. cbn. lia. Qed.

Section V.
Variable V : Type.
Implicit Types (a : nd V) (px : nat -> nat -> nat -> nat -> V).

Lemma prepared f L a n h w c px :
  holds f L a n h w c px -> recognisable f L n w c ->
  exists a4, prepare a = Some (a4, match f with Single => true | _ => false end, L) /\
    holds Batch L a4 n h w c px.
Proof.
  destruct f; cbn [holds recognisable].
  - intros [S A] [C W]. exists a. split; [|split; assumption].
    unfold prepare. rewrite S. destruct L; cbn [index length infer_4d].
    + rewrite (proj2 (memN4 c) C). destruct (memN w [1; 2; 3; 4]) eqn:M; [|reflexivity].
      apply memN4 in M. exfalso. now apply W.
    + rewrite (proj2 (memN4 c) C). destruct (memN h [1; 2; 3; 4]); reflexivity.
  - intros (-> & S & A) [C W]. exists (new_first a). split.
    + unfold prepare. rewrite S. destruct L; cbn [index skipn length infer_3d].
      * destruct (W eq_refl) as [W1 W2]. rewrite (proj2 (memN3 c)) by tauto.
        destruct (memN w [1; 2; 3; 4]) eqn:M; [|reflexivity]. apply memN4 in M. contradiction.
      * rewrite (proj2 (memN4 c) C). destruct (memN h [1; 3; 4]); reflexivity.
    + split.
      * cbn [new_first shape]. rewrite S. destruct L; reflexivity.
      * intros i y x k Hi Hy Hx Hk. assert (i = 0) as -> by lia. cbn [new_first at_].
        rewrite <- (A y x k Hy Hx Hk). destruct L; reflexivity.
  - intros (-> & -> & S & A) (W & N). exists (new_second a). split.
    + unfold prepare. rewrite S. cbn [length infer_3d].
      destruct (memN n [1; 3; 4]) eqn:M1; [apply memN3 in M1; lia|].
      destruct (memN w [1; 2; 3; 4]) eqn:M2; [apply memN4 in M2; contradiction|]. reflexivity.
    + split.
      * cbn [new_second shape]. rewrite S. reflexivity.
      * intros i y x k Hi Hy Hx Hk. assert (k = 0) as -> by lia.
        cbn [new_second at_ index firstn skipn app]. now apply A.
Qed.
Lemma leaves f L b n h w c px :
  holds Batch L b n h w c px -> (f = Single -> n = 1) ->
  holds (after f) L (leave (match f with Single => true | _ => false end) b) n h w c px.
Proof.
  intros [S A] N. destruct f; cbn [after leave holds]; [split; assumption| |split; assumption].
  rewrite (N eq_refl) in *. split; [reflexivity|]. split.
  - cbn [first_of_batch shape]. rewrite S. reflexivity.
  - intros y x k Hy Hx Hk. cbn [first_of_batch at_]. rewrite <- (A 0 y x k) by lia. destruct L; reflexivity.
Qed.
Lemma holds_single f L a n h w c px : holds f L a n h w c px -> f = Single -> n = 1.
Proof. intros H ->. apply H. Qed.

Lemma to_nchw a n h w c px : holds Batch NHWC a n h w c px -> holds Batch NCHW (transpose [0; 3; 1; 2] a) n h w c px.
Proof.
  intros [S A]. split.
  - cbn [transpose shape map]. rewrite S. reflexivity.
  - intros i y x k Hi Hy Hx Hk. cbn [transpose at_ index length seq map position Nat.eqb nth]. now apply A.
Qed.
Lemma to_nhwc a n h w c px : holds Batch NCHW a n h w c px -> holds Batch NHWC (transpose [0; 2; 3; 1] a) n h w c px.
Proof.
  intros [S A]. split.
  - cbn [transpose shape map]. rewrite S. reflexivity.
  - intros i y x k Hi Hy Hx Hk. cbn [transpose at_ index length seq map position Nat.eqb nth]. now apply A.
Qed.
Lemma set_channel L i y x k d : set_axis (index L i y x k) (channel_axis L) d = index L i y x d.
Proof. destruct L; reflexivity. Qed.
Lemma nth_channel L i y x k : nth (channel_axis L) (index L i y x k) 0 = k.
Proof. destruct L; reflexivity. Qed.
Lemma holds_ext L a n h w c px px' :
  (forall i y x k, i < n -> y < h -> x < w -> k < c -> px i y x k = px' i y x k) ->
  holds Batch L a n h w c px -> holds Batch L a n h w c px'.
Proof. intros E [S A]. split; [exact S|]. intros i y x k Hi Hy Hx Hk. rewrite <- E by assumption. now apply A. Qed.
End V.

(* ---- flattening ---- *)
Lemma cells_cons d r : cells (d :: r) = d * cells r.
Proof. reflexivity. Qed.
Lemma ravel_bound i s : inside i s -> row_major i s < cells s.
Proof.
  intros H. induction H as [|k d i s L H IH]; [cbn; lia|]. cbn [row_major]. rewrite cells_cons. nia.
Qed.
Lemma unravel_row_major i s : inside i s -> unravel s (row_major i s) = i.
Proof.
  intros H. induction H as [|k d i s L H IH]; [reflexivity|]. cbn [unravel row_major]. fold (cells s).
  pose proof (ravel_bound i s H) as B.
  rewrite Nat.div_add_l by lia. rewrite Nat.div_small by exact B. rewrite Nat.add_0_r. f_equal.
  rewrite Nat.add_comm, Nat.mod_add by lia. now rewrite Nat.mod_small.
Qed.
Lemma unravel_inside s k : k < cells s -> inside (unravel s k) s /\ row_major (unravel s k) s = k.
Proof.
  revert k. induction s as [|d s IH]; intros k H.
  - cbn in *. split; [constructor|lia].
  - cbn [unravel row_major]. fold (cells s). rewrite cells_cons in H.
    assert (P : 0 < cells s) by (destruct (cells s); lia).
    destruct (IH (k mod cells s)) as [I R]; [apply Nat.mod_upper_bound; lia|].
    split; [constructor; [apply Nat.div_lt_upper_bound; lia|exact I]|].
    rewrite R. rewrite (Nat.div_mod k (cells s)) at 3 by lia. lia.
Qed.
