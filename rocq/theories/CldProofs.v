From Coq Require Import String Sorted Lia.
From Verif Require Import Prelude CldModel CldSpec.
Local Open Scope string_scope.
Local Open Scope list_scope.
Local Notation length := List.length.

Lemma insert_perm {A} (e : string * A) l : Permutation (e :: l) (insert e l).
Proof. induction l as [|x l IH]; cbn [insert]; [apply Permutation_refl|]. destruct (String.leb (fst e) (fst x)); [apply Permutation_refl|]. eapply Permutation_trans; [apply perm_swap|]. apply perm_skip, IH. Qed.
Lemma insert_sorted {A} (e : string * A) l : Sorted (fun a b => String.leb (fst a) (fst b) = true) l -> Sorted (fun a b => String.leb (fst a) (fst b) = true) (insert e l).
Proof.
  induction l as [|x l IH]; intros H; cbn [insert]; [repeat constructor|]. destruct (String.leb (fst e) (fst x)) eqn:E; [constructor; [exact H|constructor; exact E]|].
  assert (E' : String.leb (fst x) (fst e) = true) by (destruct (String.leb_total (fst e) (fst x)); congruence).
  apply Sorted_inv in H. destruct H as [H1 H2]. constructor; [apply IH, H1|]. destruct l as [|y l]; cbn [insert]; [constructor; exact E'|]. destruct (String.leb (fst e) (fst y)); constructor; [exact E'|]. inversion H2. assumption.
Qed.
Lemma sort_order {A} (l : list (string * A)) : in_order l (sort l).
Proof.
  induction l as [|e l [IH1 IH2]]; cbn [sort]; [split; [apply Permutation_refl|constructor]|]. split; [eapply Permutation_trans; [apply perm_skip, IH1|apply insert_perm]|apply insert_sorted, IH2].
Qed.
Lemma section_ok {A} title line (d : list (string * A)) : section title line d (match d with [] => [] | p :: l => "" :: title :: map line (sort (p :: l)) end).
Proof. unfold section. destruct d as [|e d]; [left; auto|]. right. split; [discriminate|]. exists (sort (e :: d)). split; [apply sort_order|reflexivity]. Qed.
Lemma wanted_ok info w ks l : wanted_keys info w ks = inl l -> picked (fun k => exists m, info k = inl m /\ In m w) ks l.
Proof.
  revert l. induction ks as [|k ks IH]; intros l; cbn [wanted_keys]; [intros [= <-]; constructor|]. destruct (info k) as [m|f] eqn:E; [|discriminate]. destruct (wanted_keys info w ks) as [r|f] eqn:Er; [|discriminate]. intros [= <-]. destruct (existsb (String.eqb m) w) eqn:Ex.
  - apply picked_yes; [|apply IH; reflexivity]. apply existsb_exists in Ex. destruct Ex as (m' & Hi & Em). apply String.eqb_eq in Em. subst m'. exists m. auto.
  - apply picked_no; [|apply IH; reflexivity]. intros (m' & E' & Hi). assert (m' = m) by congruence. subst m'. apply not_true_iff_false in Ex. apply Ex, existsb_exists. exists m. split; [exact Hi|apply String.eqb_refl].
Qed.
Lemma wanted_fail info w ks f : wanted_keys info w ks = inr f <-> exists a k b, ks = a ++ k :: b /\ info k = inr f /\ forall k', In k' a -> exists m, info k' = inl m.
Proof.
  induction ks as [|k ks IH]; cbn [wanted_keys]; [split; [discriminate|intros ([|x a] & k & b & E & _); discriminate]|]. destruct (info k) as [m|g] eqn:E.
  - assert (Q : (match wanted_keys info w ks with inl l => inl (if existsb (String.eqb m) w then k :: l else l) | inr f0 => inr f0 end = inr f) <-> wanted_keys info w ks = inr f) by (destruct (wanted_keys info w ks); split; congruence). rewrite Q, IH. split; intros (a & k' & b & E1 & E2 & H).
    + exists (k :: a), k', b. split; [rewrite E1; reflexivity|]. split; [exact E2|]. intros x [<-|Hx]; [exists m; exact E|apply H, Hx].
    + destruct a as [|x a]; injection E1 as -> E1; [congruence|]. exists a, k', b. split; [exact E1|]. split; [exact E2|]. intros y Hy. apply H. right. exact Hy.
  - split; [intros [= ->]; exists [], k, ks; repeat split; [exact E|intros x []]|]. intros ([|x a] & k' & b & E1 & E2 & H); injection E1 as -> E1; [congruence|]. destruct (H x ltac:(left; reflexivity)) as (m & Em). congruence.
Qed.
