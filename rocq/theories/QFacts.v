(* Finite sums and averages of rationals. *)
From Coq Require Import QArith Qminmax Qfield Permutation List Lia.
From Verif Require Import Prelude.
Import ListNotations.
Local Open Scope Q_scope.
Local Open Scope list_scope.

(* np.sum, exactly *)
Definition Qsum (l : list Q) : Q := fold_right Qplus 0 l.
(* np.mean of a non-empty array, exactly *)
Definition Qmean (l : list Q) : Q := Qsum l / inject_Z (lenZ l).
(* a / b *)
Definition ratio (a b : Z) : Q := inject_Z a / inject_Z b.

Lemma Qsum_cons a l : Qsum (a :: l) = a + Qsum l. Proof. reflexivity. Qed.
Lemma Qsum_nil : Qsum [] = 0. Proof. reflexivity. Qed.
Ltac qs := cbn [app map]; rewrite ?Qsum_cons, ?Qsum_nil.
Lemma Qsum_app a b : Qsum (a ++ b) == Qsum a + Qsum b.
Proof. induction a as [|x a IH]; qs; [ring|]. rewrite IH. ring. Qed.
Lemma Qsum_perm a b : Permutation a b -> Qsum a == Qsum b.
Proof.
  induction 1; qs; [reflexivity|rewrite IHPermutation; reflexivity|ring|etransitivity; eassumption].
Qed.
Lemma Qsum_ext {A} (f g : A -> Q) l : (forall x, In x l -> f x == g x) -> Qsum (map f l) == Qsum (map g l).
Proof.
  induction l as [|a l IH]; intros H; qs; [reflexivity|]. rewrite (H a (or_introl eq_refl)), IH; [reflexivity|].
  intros x Hx. apply H. right. exact Hx.
Qed.
Lemma Qsum_zero {A} (f : A -> Q) l : (forall x, In x l -> f x == 0) -> Qsum (map f l) == 0.
Proof.
  induction l as [|a l IH]; intros H; qs; [reflexivity|]. rewrite (H a (or_introl eq_refl)), IH; [ring|].
  intros x Hx. apply H. right. exact Hx.
Qed.
Lemma Qsum_plus {A} (f g : A -> Q) l : Qsum (map (fun x => f x + g x) l) == Qsum (map f l) + Qsum (map g l).
Proof. induction l as [|a l IH]; qs; [ring|]. rewrite IH. ring. Qed.
Lemma Qsum_minus {A} (f g : A -> Q) l : Qsum (map (fun x => f x - g x) l) == Qsum (map f l) - Qsum (map g l).
Proof. induction l as [|a l IH]; qs; [ring|]. rewrite IH. ring. Qed.
Lemma Qsum_scale {A} (c : Q) (f : A -> Q) l : Qsum (map (fun x => c * f x) l) == c * Qsum (map f l).
Proof. induction l as [|a l IH]; qs; [ring|]. rewrite IH. ring. Qed.
Lemma Qsum_scale_r {A} (c : Q) (f : A -> Q) l : Qsum (map (fun x => f x * c) l) == Qsum (map f l) * c.
Proof. induction l as [|a l IH]; qs; [ring|]. rewrite IH. ring. Qed.
Lemma Qsum_swap {A B} (f : A -> B -> Q) la lb :
  Qsum (map (fun a => Qsum (map (f a) lb)) la) == Qsum (map (fun b => Qsum (map (fun a => f a b) la)) lb).
Proof.
  induction la as [|a la IH]; qs.
  - symmetry. apply Qsum_zero. reflexivity.
  - rewrite IH, <- Qsum_plus. reflexivity.
Qed.
Lemma Qsum_nonneg l : (forall x, In x l -> 0 <= x) -> 0 <= Qsum l.
Proof.
  induction l as [|a l IH]; intros H; qs; [apply Qle_refl|]. setoid_replace 0 with (0 + 0) at 1 by ring.
  apply Qplus_le_compat; [apply H; left; reflexivity|apply IH; intros x Hx; apply H; right; exact Hx].
Qed.
Lemma Qsum_le {A} (f g : A -> Q) l : (forall x, In x l -> f x <= g x) -> Qsum (map f l) <= Qsum (map g l).
Proof.
  induction l as [|a l IH]; intros H; qs; [apply Qle_refl|].
  apply Qplus_le_compat; [apply H; left; reflexivity|apply IH; intros x Hx; apply H; right; exact Hx].
Qed.
Lemma Qsum_const {A} (c : Q) (l : list A) : Qsum (map (fun _ => c) l) == inject_Z (lenZ l) * c.
Proof.
  induction l as [|a l IH]; [cbn; ring|]. qs. rewrite IH. unfold lenZ. cbn [List.length]. rewrite Nat2Z.inj_succ, <- Z.add_1_r, inject_Z_plus. change (inject_Z 1) with 1. ring.
Qed.
Lemma Qsum_zero_inv l : (forall x, In x l -> 0 <= x) -> Qsum l == 0 -> forall x, In x l -> x == 0.
Proof.
  induction l as [|a l IH]; intros H E x Hin; [destruct Hin|]. destruct Hin as [<-|Hx].
  - rewrite Qsum_cons in E. pose proof (Qsum_nonneg l (fun y Hy => H y (or_intror Hy))) as P. pose proof (H a (or_introl eq_refl)) as Pa.
    apply Qle_antisym; [|exact Pa]. rewrite <- E. setoid_replace a with (a + 0) at 1 by ring. apply Qplus_le_compat; [apply Qle_refl|exact P].
  - assert (Hl : forall y, In y l -> 0 <= y) by (intros y Hy; apply H; right; exact Hy). apply IH; [exact Hl| |exact Hx].
    rewrite Qsum_cons in E. pose proof (Qsum_nonneg l Hl) as P. pose proof (H a (or_introl eq_refl)) as Pa.
    apply Qle_antisym; [|exact P]. rewrite <- E. setoid_replace (Qsum l) with (0 + Qsum l) at 1 by ring. apply Qplus_le_compat; [exact Pa|apply Qle_refl].
Qed.

Lemma lenZ_pos {A} (l : list A) : l <> [] -> 0 < inject_Z (lenZ l).
Proof. intros H. destruct l; [congruence|]. unfold lenZ. cbn [List.length]. change 0 with (inject_Z 0). rewrite <- Zlt_Qlt. lia. Qed.
Lemma Qmean_range l : l <> [] -> (forall x, In x l -> 0 <= x <= 1) -> 0 <= Qmean l <= 1.
Proof.
  intros Hl H. pose proof (lenZ_pos l Hl) as P. unfold Qmean. split.
  - apply Qle_shift_div_l; [exact P|]. rewrite Qmult_0_l. apply Qsum_nonneg. intros x Hx. apply H, Hx.
  - apply Qle_shift_div_r; [exact P|]. rewrite Qmult_1_l. rewrite <- (map_id l) at 1.
    eapply Qle_trans; [apply Qsum_le with (g := fun _ => 1); intros x Hx; apply H, Hx|]. rewrite Qsum_const. rewrite Qmult_1_r. apply Qle_refl.
Qed.
Lemma Qmean_one l : l <> [] -> (forall x, In x l -> 0 <= x <= 1) -> (Qmean l == 1 <-> forall x, In x l -> x == 1).
Proof.
  intros Hl H. pose proof (lenZ_pos l Hl) as P. unfold Qmean. assert (Hn : ~ inject_Z (lenZ l) == 0) by (intros E; rewrite E in P; discriminate).
  split.
  - intros E x Hx. assert (E0 : Qsum (map (fun y => 1 - y) l) == 0).
    { rewrite Qsum_minus, Qsum_const, map_id. apply (Qmult_inj_r _ _ (inject_Z (lenZ l))) in E; [|exact Hn].
      unfold Qdiv in E. rewrite <- Qmult_assoc, (Qmult_comm (/ _)), Qmult_inv_r in E by exact Hn. rewrite Qmult_1_r in E. rewrite E. ring. }
    assert (Hx' : 1 - x == 0).
    { apply (Qsum_zero_inv _) with (2 := E0) ; [|apply (in_map (fun y => 1 - y)), Hx].
      intros y Hy. apply in_map_iff in Hy. destruct Hy as (z & <- & Hz). apply -> Qle_minus_iff. apply H, Hz. }
    setoid_replace x with (1 - (1 - x)) by ring. rewrite Hx'. ring.
  - intros Hall. rewrite <- (map_id l) at 1. rewrite (Qsum_ext (fun x => x) (fun _ => 1)) by exact Hall. rewrite Qsum_const. field. exact Hn.
Qed.
Lemma Qmean_perm a b : Permutation a b -> Qmean a == Qmean b.
Proof. intros H. unfold Qmean, lenZ. rewrite (Qsum_perm _ _ H), (Permutation_length H). reflexivity. Qed.
Lemma Qmean_ext {A} (f g : A -> Q) l : (forall x, In x l -> f x == g x) -> Qmean (map f l) == Qmean (map g l).
Proof. intros H. unfold Qmean, lenZ. rewrite (Qsum_ext f g l H), !map_length. reflexivity. Qed.

Lemma ratio_range a b : (0 <= a <= b)%Z -> (0 < b)%Z -> 0 <= ratio a b <= 1.
Proof.
  intros H Hb. assert (P : 0 < inject_Z b) by (change 0 with (inject_Z 0); rewrite <- Zlt_Qlt; exact Hb). unfold ratio. split.
  - apply Qle_shift_div_l; [exact P|]. rewrite Qmult_0_l. change 0 with (inject_Z 0). rewrite <- Zle_Qle. apply H.
  - apply Qle_shift_div_r; [exact P|]. rewrite Qmult_1_l. rewrite <- Zle_Qle. apply H.
Qed.
Lemma ratio_one a b : (0 < b)%Z -> (ratio a b == 1 <-> a = b).
Proof.
  intros Hb. assert (P : ~ inject_Z b == 0) by (intros E; change 0 with (inject_Z 0) in E; apply (proj1 (inject_Z_injective b 0)) in E; lia). unfold ratio. split.
  - intros E. apply inject_Z_injective. apply (Qmult_inj_r _ _ (inject_Z b)) in E; [|exact P].
    unfold Qdiv in E. rewrite <- Qmult_assoc, (Qmult_comm (/ _)), Qmult_inv_r in E by exact P. rewrite Qmult_1_r, Qmult_1_l in E. exact E.
  - intros ->. field. exact P.
Qed.
