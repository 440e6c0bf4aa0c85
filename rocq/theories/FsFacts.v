(* Facts about the file system model. *)
From Coq Require Import String.
From Verif Require Import Prelude FsModel.
Local Open Scope list_scope.

Lemma path_eqb_refl p : path_eqb p p = true.
Proof. unfold path_eqb. destruct (list_eq_dec string_dec p p); congruence. Qed.
Lemma path_eqb_neq p q : p <> q -> path_eqb p q = false.
Proof. intros H. unfold path_eqb. destruct (list_eq_dec string_dec p q); congruence. Qed.
Lemma path_eqb_eq p q : path_eqb p q = true <-> p = q.
Proof. unfold path_eqb. destruct (list_eq_dec string_dec p q); split; congruence. Qed.

Lemma set_same {V} (f : fs V) p n : set f p n p = n.
Proof. unfold set. rewrite path_eqb_refl. reflexivity. Qed.
Lemma set_other {V} (f : fs V) p q n : q <> p -> set f p n q = f q.
Proof. intros H. unfold set. rewrite path_eqb_neq by exact H. reflexivity. Qed.

Lemma app_neq (d : path) (a b : string) : a <> b -> d ++ [a] <> d ++ [b].
Proof. intros H E. apply app_inv_head in E. congruence. Qed.
Lemma app_neq_dir (d : path) (a : string) : d ++ [a] <> d.
Proof. intros E. rewrite <- (app_nil_r d) in E at 2. apply app_inv_head in E. discriminate. Qed.
Lemma dir_neq_app (d : path) (a : string) : d <> d ++ [a].
Proof. intros E. symmetry in E. exact (app_neq_dir _ _ E). Qed.

Lemma run_app {V} (a b : list (step V)) f : run (a ++ b) f = run b (run a f).
Proof. unfold run. apply fold_left_app. Qed.

Lemma crash_all {V} k (l : list (step V)) f : (length l <= k)%nat -> crash k l f = run l f.
Proof. intros H. unfold crash. rewrite firstn_all2 by exact H. reflexivity. Qed.

(* a crash point inside a concatenation is in the first or in the second part *)
Lemma crash_app {V} k (a b : list (step V)) f :
  crash k (a ++ b) f =
  if (k <? length a)%nat then crash k a f else crash (k - length a) b (run a f).
Proof.
  unfold crash. rewrite firstn_app. destruct (Nat.ltb_spec k (length a)) as [H|H].
  - replace (k - length a)%nat with 0%nat by lia. cbn. rewrite app_nil_r. reflexivity.
  - rewrite run_app, (firstn_all2 a) by exact H. reflexivity.
Qed.

(* a step leaves every path it does not name alone *)
Definition touches {V} (s : step V) (p : path) : Prop :=
  match s with
  | SMkdir q | STorn q | SWrite q _ | SUnlink q => q = p
  | SRename a b => a = p \/ b = p
  end.

Lemma exec_untouched {V} (f : fs V) s p : ~ touches s p -> exec f s p = f p.
Proof.
  destruct s; cbn; intros H.
  - destruct (f p0); [reflexivity|]. apply set_other. congruence.
  - apply set_other; congruence.
  - apply set_other; congruence.
  - rewrite !set_other by (intros E; apply H; auto). reflexivity.
  - apply set_other; congruence.
Qed.

Lemma run_untouched {V} (l : list (step V)) f p :
  (forall s, In s l -> ~ touches s p) -> run l f p = f p.
Proof.
  revert f. induction l as [|s r IH]; intros f H; [reflexivity|].
  unfold run in *. cbn [fold_left]. rewrite IH by (intros t Ht; apply H; right; exact Ht).
  apply exec_untouched, H. left; reflexivity.
Qed.

Lemma crash_untouched {V} k (l : list (step V)) f p :
  (forall s, In s l -> ~ touches s p) -> crash k l f p = f p.
Proof.
  intros H. apply run_untouched. intros s Hs. apply H.
  rewrite <- (firstn_skipn k l). apply in_or_app; auto.
Qed.

(* atomic_write: at every crash point the target is as before, or complete *)
Lemma atomic_write_crash {V} k tmp p (v : V) f : tmp <> p ->
  crash k (atomic_write tmp p v) f p = f p \/
  crash k (atomic_write tmp p v) f p = Some (NFile (Whole v)).
Proof.
  intros H. assert (H' : p <> tmp) by congruence.
  destruct k as [|[|[|k]]]; cbn.
  - auto.
  - left. apply set_other, H'.
  - left. rewrite !set_other by exact H'. reflexivity.
  - right. assert (firstn k ([] : list (step V)) = []) as -> by (destruct k; reflexivity). cbn.
    rewrite (set_other _ tmp p) by exact H'. rewrite set_same, set_same. reflexivity.
Qed.

Lemma atomic_write_run {V} tmp p (v : V) f : tmp <> p ->
  run (atomic_write tmp p v) f p = Some (NFile (Whole v)).
Proof.
  intros H. assert (H' : p <> tmp) by congruence. cbn.
  rewrite (set_other _ tmp p) by exact H'. rewrite set_same, set_same. reflexivity.
Qed.

Lemma atomic_write_other {V} tmp p q (v : V) f k : q <> tmp -> q <> p ->
  crash k (atomic_write tmp p v) f q = f q.
Proof.
  intros H1 H2. apply crash_untouched. intros s [<-|[<-|[<-|[]]]]; cbn; intuition congruence.
Qed.
