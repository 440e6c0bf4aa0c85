(* Proofs about the cache lock (C14). *)
From Verif Require Import Prelude LockModel.
Local Open Scope list_scope.

Definition holding (v : pc) : Prop := v = Inside \/ v = Leaving.

(* no process whose attempt was refused runs its cleanup during the schedule *)
Fixpoint no_refused_cleanup (sched : list nat) (s : lstate) : Prop :=
  match sched with
  | [] => True
  | p :: r => pcs s p <> Refused /\ no_refused_cleanup r (lstep s p)
  end.

Definition linv (s : lstate) : Prop :=
  (forall p q, holding (pcs s p) -> holding (pcs s q) -> p = q) /\
  (forall p, holding (pcs s p) -> lock_file s = true).

Lemma linv_step s p : pcs s p <> Refused -> linv s -> linv (lstep s p).
Proof.
  intros Hr [H1 H2]. unfold lstep, holding in *.
  destruct (pcs s p) eqn:E; [| | |congruence].
  - destruct (lock_file s) eqn:El; split; cbn; unfold set_pc; intros a.
    + intros b. destruct (Nat.eqb_spec a p), (Nat.eqb_spec b p); subst; auto; try (intros [|]; discriminate); intros ? [|]; discriminate.
    + auto.
    + intros b Ha Hb. destruct (Nat.eqb_spec a p), (Nat.eqb_spec b p); subst; auto.
      * apply H2 in Hb. congruence.
      * apply H2 in Ha. congruence.
    + auto.
  - split; cbn; unfold set_pc; intros a.
    + intros b Ha Hb. apply H1.
      * destruct (Nat.eqb_spec a p); subst; auto.
      * destruct (Nat.eqb_spec b p); subst; auto.
    + intros Ha. apply (H2 p). auto.
  - split; cbn; unfold set_pc; intros a.
    + intros b Ha Hb. destruct (Nat.eqb_spec a p), (Nat.eqb_spec b p); subst; auto;
        try (destruct Ha; discriminate); destruct Hb; discriminate.
    + intros Ha. exfalso. destruct (Nat.eqb_spec a p) as [Hn|Hn]; [destruct Ha; discriminate|].
      apply Hn. apply H1; auto.
Qed.

Lemma linv_start : linv lstart.
Proof. split; cbn; intros; destruct H; discriminate. Qed.

Lemma linv_run sched : forall s, linv s -> no_refused_cleanup sched s -> linv (lrun sched s).
Proof.
  induction sched as [|p r IH]; intros s Hs H; [exact Hs|]. destruct H as [H1 H2].
  cbn. apply IH; [|exact H2]. apply linv_step; assumption.
Qed.

Lemma mutex_unless_refused sched p q :
  no_refused_cleanup sched lstart ->
  pcs (lrun sched lstart) p = Inside -> pcs (lrun sched lstart) q = Inside -> p = q.
Proof.
  intros H Hp Hq. destruct (linv_run sched lstart linv_start H) as [H1 _].
  apply H1; left; assumption.
Qed.

(* releasing is always possible: from any state, a process that is not outside gets out in at most
   two of its own steps, and the lock file is then gone *)
Lemma lock_released s p : pcs s p <> Outside ->
  exists k, (k <= 2)%nat /\ pcs (lrun (repeat p k) s) p = Outside /\ lock_file (lrun (repeat p k) s) = false.
Proof.
  intros H. destruct (pcs s p) eqn:E; [congruence| | |].
  - exists 2%nat. split; [lia|]. change (lrun (repeat p 2) s) with (lstep (lstep s p) p).
    assert (E1 : lstep s p = {| lock_file := lock_file s; pcs := set_pc (pcs s) p Leaving |})
      by (unfold lstep; rewrite E; reflexivity).
    rewrite E1. unfold lstep. cbn. unfold set_pc at 1 3. rewrite Nat.eqb_refl. cbn.
    unfold set_pc. rewrite Nat.eqb_refl. auto.
  - exists 1%nat. split; [lia|]. change (lrun (repeat p 1) s) with (lstep s p).
    unfold lstep. rewrite E. cbn. unfold set_pc. rewrite Nat.eqb_refl. auto.
  - exists 1%nat. split; [lia|]. change (lrun (repeat p 1) s) with (lstep s p).
    unfold lstep. rewrite E. cbn. unfold set_pc. rewrite Nat.eqb_refl. auto.
Qed.
