From Coq Require Import QArith Lia ZifyBool ZifyNat.
From Verif Require Import Prelude ListFacts BundleProofs TviModel TviSpec.
Local Open Scope Z_scope.
Local Open Scope list_scope.
Local Notation length := List.length.

Lemma channels_spec n : channels n = true <-> few n. Proof. unfold channels, few; lia. Qed.
Lemma channels_not n : channels n = false <-> ~ few n. Proof. rewrite <- channels_spec; destruct (channels n); split; congruence. Qed.
Lemma nchw_spec x t : to_nchw x = Ok t -> stands_for x (t_c t) (t_h t) (t_w t) (t_at t).
Proof.
  destruct x as [h w f|a b c f|n a b c f|d]; cbn; try discriminate; [intros [= <-]; cbn; apply gray|].
  destruct (channels a && negb (channels c))%bool eqn:E; [intros [= <-]; cbn; apply andb_prop in E; destruct E as (E1 & E2); apply first_is_channels; [apply channels_spec; exact E1|apply channels_not; now destruct (channels c)]|].
  destruct (channels c) eqn:C; [intros [= <-]; cbn; apply last_is_channels, channels_spec; exact C|discriminate].
Qed.
Lemma nchw_ok x c h w f : stands_for x c h w f -> to_nchw x = Ok {| t_c := c; t_h := h; t_w := w; t_at := f |}.
Proof.
  intros H; inversion H; subst; cbn; [reflexivity| |].
  - apply channels_spec in H0; rewrite H0, Bool.andb_false_r; reflexivity.
  - apply channels_spec in H0; apply channels_not in H1; rewrite H0, H1; reflexivity.
Qed.
Lemma prepare_spec expected rep x t : prepare expected rep x = Ok t -> shown expected rep x t.
Proof.
  unfold prepare; intros H; apply bind_ok in H; destruct H as (u & Eu & H); apply nchw_spec in Eu; exists (t_c u), (t_h u), (t_w u), (t_at u); split; [exact Eu|].
  destruct expected as [e|]; [|injection H as <-; split; [reflexivity|split; [reflexivity|left; split; [reflexivity|split; [left; reflexivity|reflexivity]]]]].
  destruct (Nat.eqb_spec (t_c u) e) as [<-|N]; [injection H as <-; split; [reflexivity|split; [reflexivity|left; split; [reflexivity|split; [right; reflexivity|reflexivity]]]]|].
  destruct (rep && Nat.eqb (t_c u) 1 && Nat.eqb e 3)%bool eqn:E; [|discriminate]; injection H as <-; split; [reflexivity|split; [reflexivity|right]]; cbn.
  apply andb_prop in E; destruct E as (E & E3); apply andb_prop in E; destruct E as (E1 & E2); apply Nat.eqb_eq in E2, E3; subst e rep; split; [reflexivity|split; [exact E2|split; [reflexivity|split; reflexivity]]].
Qed.
Lemma prepare_ok expected rep x t : shown expected rep x t -> exists u, prepare expected rep x = Ok u /\ same_picture u t.
Proof.
  intros (c & h & w & f & Hs & Hh & Hw & H); unfold prepare; rewrite (nchw_ok _ _ _ _ _ Hs); cbn [bind t_c]; destruct H as [(Hc & He & Hf)|(Hr & -> & He & Hc & Hf)].
  - eexists; split; [destruct He as [-> | ->]; [reflexivity|rewrite Nat.eqb_refl; reflexivity]|]; split; [repeat split; cbn; congruence|intros k i j; cbn; symmetry; apply Hf].
  - rewrite He, Hr; cbn; eexists; split; [reflexivity|]; split; [repeat split; cbn; congruence|intros k i j; cbn; symmetry; apply Hf].
Qed.
Section Encoder.
Variable expected : option nat.
Variable rep : bool.
Variable features : tensor -> list Q.
Lemma prepare_all_spec l ts : prepare_all expected rep l = Ok ts <-> Forall2 (fun x t => prepare expected rep x = Ok t) l ts.
Proof.
  revert ts; induction l as [|x l IH]; intros ts; cbn [prepare_all]; [split; [intros [= <-]; constructor|intros H; inversion H; reflexivity]|].
  destruct (prepare expected rep x) as [t|e] eqn:E; cbn [bind]; [|split; [discriminate|intros H; inversion H; congruence]].
  destruct (prepare_all expected rep l) as [us|e]; cbn [bind]; split.
  - intros [= <-]; constructor; [exact E|apply IH; reflexivity].
  - intros H; inversion H; subst; assert (R : Ok us = Ok l') by (apply IH; assumption); congruence.
  - discriminate.
  - intros H; inversion H; subst; assert (R : Err e = Ok l') by (apply IH; assumption); discriminate.
Qed.
Lemma same_size_spec a b : same_size a b = true <-> alike a b.
Proof. unfold same_size, alike; rewrite !Bool.andb_true_iff, !Nat.eqb_eq; tauto. Qed.
Lemma Forall2_cut {A B} (P : A -> B -> Prop) n l l' : Forall2 P l l' -> Forall2 P (firstn n l) (firstn n l') /\ Forall2 P (skipn n l) (skipn n l').
Proof. revert l l'; induction n as [|n IH]; intros l l' H; [split; [constructor|exact H]|]; inversion H; subst; [split; constructor|]; destruct (IH _ _ H1) as (Ha & Hb); split; [constructor; assumption|exact Hb]. Qed.
Lemma batches_spec fuel : forall bs l out, (0 < bs)%nat -> (length l <= fuel)%nat -> encode_batches expected rep features fuel bs l = Ok out -> exists ts, Forall2 (fun x t => prepare expected rep x = Ok t) l ts /\ out = map features ts.
Proof.
  induction fuel as [|k IH]; intros bs l out Hb Hl H; [destruct l; [injection H as <-; exists []; split; [constructor|reflexivity]|cbn in Hl; lia]|].
  destruct l as [|x l]; [injection H as <-; exists []; split; [constructor|reflexivity]|]; cbn [encode_batches] in H; apply bind_ok in H; destruct H as (a & Ea & H); apply bind_ok in H; destruct H as (b & Eb & [= <-]).
  unfold encode_batch in Ea; apply bind_ok in Ea; destruct Ea as (ts & Et & Ea); apply prepare_all_spec in Et; destruct (match ts with [] => true | t :: r => forallb (same_size t) r end); [|discriminate]; injection Ea as <-.
  apply IH in Eb; [|exact Hb|destruct bs; [lia|]; cbn [skipn]; rewrite skipn_length; cbn in Hl; lia]; destruct Eb as (us & Eu & ->); exists (ts ++ us); split; [|now rewrite map_app].
  rewrite <- (firstn_skipn bs (x :: l)); apply Forall2_app; assumption.
Qed.
Lemma batches_ok fuel : forall bs l ts, (0 < bs)%nat -> (length l <= fuel)%nat -> Forall2 (fun x t => prepare expected rep x = Ok t) l ts -> (forall t u, In t ts -> In u ts -> alike t u) -> encode_batches expected rep features fuel bs l = Ok (map features ts).
Proof.
  induction fuel as [|k IH]; intros bs l ts Hb Hl HF Ha; [destruct l; [inversion HF; reflexivity|cbn in Hl; lia]|].
  destruct l as [|x l]; [inversion HF; reflexivity|]; cbn [encode_batches]; destruct (Forall2_cut _ bs _ _ HF) as (F1 & F2).
  assert (I1 : forall t, In t (firstn bs ts) -> In t ts) by (intros t Ht; rewrite <- (firstn_skipn bs ts); apply in_or_app; left; exact Ht).
  assert (I2 : forall t, In t (skipn bs ts) -> In t ts) by (intros t Ht; rewrite <- (firstn_skipn bs ts); apply in_or_app; right; exact Ht).
  unfold encode_batch; rewrite (proj2 (prepare_all_spec _ _) F1); cbn [bind].
  replace (match firstn bs ts with [] => true | t :: r => forallb (same_size t) r end) with true.
  - cbn [bind]; rewrite (IH bs (skipn bs (x :: l)) (skipn bs ts)); [cbn [bind]; now rewrite <- map_app, firstn_skipn|exact Hb|rewrite skipn_length; cbn [length] in *; lia|exact F2|intros t u Ht Hu; apply Ha; apply I2; assumption].
  - symmetry; destruct (firstn bs ts) as [|t r]; [reflexivity|]; apply forallb_forall; intros u Hu; apply same_size_spec, Ha; apply I1; [left; reflexivity|right; exact Hu].
Qed.
End Encoder.
