(* Generic facts about the list functions of Prelude.v. *)
From Verif Require Import Prelude.
From Coq Require Import ZifyBool ZifyNat.
Ltac Zify.zify_post_hook ::= Z.div_mod_to_equations.

Notation ascending := (StronglySorted Z.lt).

(* ---------- sorting ---------- *)
Lemma insertZ_perm x l : Permutation (insertZ x l) (x :: l).
Proof.
  induction l as [|y r IH]; cbn; [reflexivity|].
  destruct (x <=? y); [reflexivity|].
  rewrite IH. apply perm_swap.
Qed.

Lemma sortZ_perm l : Permutation (sortZ l) l.
Proof.
  induction l as [|x r IH]; cbn; [constructor|].
  change (fold_right insertZ [] r) with (sortZ r).
  rewrite insertZ_perm. constructor; exact IH.
Qed.

Lemma insertZ_sorted x l : StronglySorted Z.le l -> StronglySorted Z.le (insertZ x l).
Proof.
  induction 1 as [|y r Hs IH Hf]; cbn; [repeat constructor|].
  destruct (Z.leb_spec x y) as [Hle|Hgt].
  - constructor; [constructor; assumption|].
    constructor; [exact Hle|]. eapply Forall_impl; [|exact Hf]. cbn; lia.
  - constructor; [exact IH|].
    eapply Permutation_Forall; [symmetry; apply insertZ_perm|].
    constructor; [lia|exact Hf].
Qed.

Lemma sortZ_sorted l : StronglySorted Z.le (sortZ l).
Proof.
  induction l as [|x r IH]; cbn; [constructor|]. apply insertZ_sorted, IH.
Qed.

Lemma sortZ_In l x : In x (sortZ l) <-> In x l.
Proof. split; apply Permutation_in; [|symmetry]; apply sortZ_perm. Qed.

Lemma sortZ_length l : length (sortZ l) = length l.
Proof. apply Permutation_length, sortZ_perm. Qed.

Lemma sorted_le_NoDup_lt l : StronglySorted Z.le l -> NoDup l -> ascending l.
Proof.
  induction 1 as [|x r Hs IH Hf]; intros Hnd; [constructor|].
  inversion Hnd as [|? ? Hni Hnd']; subst.
  constructor; [apply IH, Hnd'|].
  rewrite Forall_forall in Hf |- *. intros y Hy. specialize (Hf y Hy).
  assert (x <> y) by (intros ->; contradiction). lia.
Qed.

Lemma sortZ_ascending l : NoDup l -> ascending (sortZ l).
Proof.
  intros Hnd. apply sorted_le_NoDup_lt; [apply sortZ_sorted|].
  eapply Permutation_NoDup; [symmetry; apply sortZ_perm|exact Hnd].
Qed.

Lemma ascending_NoDup l : ascending l -> NoDup l.
Proof.
  induction 1 as [|x r Hs IH Hf]; constructor; [|exact IH].
  intros Hin. rewrite Forall_forall in Hf. specialize (Hf x Hin). lia.
Qed.

Lemma ascending_ext l1 l2 :
  ascending l1 -> ascending l2 -> (forall x, In x l1 <-> In x l2) -> l1 = l2.
Proof.
  intros H1; revert l2; induction H1 as [|x r Hs IH Hf]; intros l2 H2 Heq.
  - destruct l2 as [|y t]; [reflexivity|]. exfalso. apply (Heq y). left; reflexivity.
  - destruct H2 as [|y t Ht Hft].
    + exfalso. apply (Heq x). left; reflexivity.
    + rewrite Forall_forall in Hf, Hft.
      assert (x = y) as ->.
      { destruct (proj1 (Heq x) (or_introl eq_refl)) as [->|Hx]; [reflexivity|].
        destruct (proj2 (Heq y) (or_introl eq_refl)) as [->|Hy]; [reflexivity|].
        specialize (Hf y Hy); specialize (Hft x Hx); lia. }
      f_equal. apply IH; [exact Ht|]. intros z; split; intros Hz.
      * destruct (proj1 (Heq z) (or_intror Hz)) as [->|]; [|assumption].
        specialize (Hf z Hz); lia.
      * destruct (proj2 (Heq z) (or_intror Hz)) as [->|]; [|assumption].
        specialize (Hft z Hz); lia.
Qed.

Lemma sortZ_of_ascending l : ascending l -> sortZ l = l.
Proof.
  intros H. apply ascending_ext; [|exact H|intros; apply sortZ_In].
  apply sortZ_ascending, ascending_NoDup, H.
Qed.

(* ---------- unique ---------- *)
Lemma dedup_sorted_In l x : In x (dedup_sorted l) <-> In x l.
Proof.
  induction l as [|a r IH]; [reflexivity|].
  destruct r as [|b t]; [reflexivity|].
  change (dedup_sorted (a :: b :: t)) with
    (if a =? b then dedup_sorted (b :: t) else a :: dedup_sorted (b :: t)).
  destruct (Z.eqb_spec a b) as [->|Hne].
  - rewrite IH. cbn. tauto.
  - cbn [In]. rewrite IH. reflexivity.
Qed.

Lemma dedup_sorted_ascending l : StronglySorted Z.le l -> ascending (dedup_sorted l).
Proof.
  induction 1 as [|a r Hs IH Hf]; [constructor|].
  destruct r as [|b t]; [repeat constructor|].
  change (dedup_sorted (a :: b :: t)) with
    (if a =? b then dedup_sorted (b :: t) else a :: dedup_sorted (b :: t)).
  destruct (Z.eqb_spec a b) as [->|Hne]; [exact IH|].
  constructor; [exact IH|].
  rewrite Forall_forall. intros y Hy. rewrite dedup_sorted_In in Hy.
  inversion Hs as [|? ? Hst Hft]; subst.
  rewrite Forall_forall in Hf, Hft.
  assert (a <= b) by (apply Hf; left; reflexivity).
  destruct Hy as [->|Hy]; [lia|]. specialize (Hft y Hy). lia.
Qed.

Lemma uniqueZ_In l x : In x (uniqueZ l) <-> In x l.
Proof. unfold uniqueZ. rewrite dedup_sorted_In. apply sortZ_In. Qed.

Lemma uniqueZ_ascending l : ascending (uniqueZ l).
Proof. apply dedup_sorted_ascending, sortZ_sorted. Qed.

Lemma uniqueZ_NoDup l : NoDup (uniqueZ l).
Proof. apply ascending_NoDup, uniqueZ_ascending. Qed.

Lemma uniqueZ_length_le l : (length (uniqueZ l) <= length l)%nat.
Proof.
  apply NoDup_incl_length; [apply uniqueZ_NoDup|]. intros x Hx. apply uniqueZ_In, Hx.
Qed.

Lemma has_dup_false l : has_dup l = false <-> NoDup l.
Proof.
  unfold has_dup. rewrite negb_false_iff, Nat.eqb_eq. split; intros H.
  - apply NoDup_incl_NoDup with (l := uniqueZ l); [apply uniqueZ_NoDup|lia|].
    intros x Hx; apply uniqueZ_In, Hx.
  - apply Nat.le_antisymm; [apply uniqueZ_length_le|].
    apply NoDup_incl_length; [exact H|]. intros x Hx; apply uniqueZ_In, Hx.
Qed.

Lemma memZ_In x l : memZ x l = true <-> In x l.
Proof.
  unfold memZ. rewrite existsb_exists. split.
  - intros (y & Hy & He). apply Z.eqb_eq in He. subst; assumption.
  - intros H. exists x. split; [exact H|apply Z.eqb_refl].
Qed.

Lemma memZ_false x l : memZ x l = false <-> ~ In x l.
Proof. rewrite <- memZ_In. destruct (memZ x l); intuition congruence. Qed.

Lemma setdiff1d_In a b x : In x (setdiff1d a b) <-> In x a /\ ~ In x b.
Proof.
  unfold setdiff1d. rewrite filter_In, uniqueZ_In, negb_true_iff, memZ_false. reflexivity.
Qed.

Lemma StronglySorted_filter {A} (R : A -> A -> Prop) (f : A -> bool) l :
  StronglySorted R l -> StronglySorted R (filter f l).
Proof.
  induction 1 as [|x r Hs IH Hf]; cbn; [constructor|].
  destruct (f x); [|exact IH]. constructor; [exact IH|].
  rewrite Forall_forall in *. intros y Hy. apply filter_In in Hy. apply Hf, Hy.
Qed.

Lemma setdiff1d_ascending a b : ascending (setdiff1d a b).
Proof. apply StronglySorted_filter, uniqueZ_ascending. Qed.

Lemma setdiff1d_nil a b : setdiff1d a b = [] <-> incl a b.
Proof.
  split.
  - intros H x Hx. destruct (in_dec Z.eq_dec x b) as [|Hn]; [assumption|].
    assert (In x (setdiff1d a b)) as Hin by (apply setdiff1d_In; tauto).
    rewrite H in Hin. contradiction.
  - intros H. destruct (setdiff1d a b) as [|x r] eqn:E; [reflexivity|].
    assert (In x (setdiff1d a b)) as Hin by (rewrite E; left; reflexivity).
    apply setdiff1d_In in Hin. destruct Hin as [Ha Hb]. elim Hb. apply H, Ha.
Qed.

Lemma intersects_false a b : intersects a b = false <-> (forall x, In x a -> ~ In x b).
Proof.
  unfold intersects. split.
  - intros H x Ha Hb. assert (existsb (fun x => memZ x b) a = true) as Ht.
    { apply existsb_exists. exists x. split; [exact Ha|apply memZ_In, Hb]. }
    congruence.
  - intros H. destruct (existsb _ a) eqn:E; [|reflexivity].
    apply existsb_exists in E. destruct E as (x & Ha & Hb). apply memZ_In in Hb.
    elim (H x Ha Hb).
Qed.

(* ---------- arange ---------- *)
Lemma arange_In n x : In x (arange n) <-> 0 <= x < n.
Proof.
  unfold arange. rewrite in_map_iff. split.
  - intros (k & <- & Hk). apply in_seq in Hk. lia.
  - intros H. exists (Z.to_nat x). split; [lia|]. apply in_seq. lia.
Qed.

Lemma arange_length n : length (arange n) = Z.to_nat n.
Proof. unfold arange. rewrite map_length, seq_length. reflexivity. Qed.

Lemma arange_ascending n : ascending (arange n).
Proof.
  unfold arange. generalize 0%nat. induction (Z.to_nat n) as [|m IH]; intros st; cbn; [constructor|].
  constructor; [apply IH|].
  rewrite Forall_forall. intros x Hx. apply in_map_iff in Hx.
  destruct Hx as (k & <- & Hk). apply in_seq in Hk. lia.
Qed.

Lemma arange_NoDup n : NoDup (arange n).
Proof. apply ascending_NoDup, arange_ascending. Qed.

(* ---------- sums, updates ---------- *)
Lemma sumZ_app a b : sumZ (a ++ b) = sumZ a + sumZ b.
Proof. induction a as [|x r IH]; cbn; lia. Qed.

Lemma sumZ_perm a b : Permutation a b -> sumZ a = sumZ b.
Proof. induction 1; cbn; lia. Qed.

Lemma update_length {A} (l : list A) i f : length (update l i f) = length l.
Proof. revert i; induction l as [|x r IH]; intros [|i]; cbn; auto. Qed.

Lemma update_nth {A} (l : list A) i f j d :
  (i < length l)%nat ->
  nth j (update l i f) d = if Nat.eqb j i then f (nth j l d) else nth j l d.
Proof.
  revert i j; induction l as [|x r IH]; intros [|i] [|j] Hi; cbn in *; try lia; try reflexivity.
  apply IH. lia.
Qed.

Lemma update_sum l i f : (i < length l)%nat ->
  sumZ (update l i f) = sumZ l + (f (nth i l 0) - nth i l 0).
Proof.
  revert i; induction l as [|x r IH]; intros [|i] Hi; cbn in *; try lia.
  rewrite IH by lia. lia.
Qed.

Lemma sumZ_nonneg l : Forall (fun x => 0 <= x) l -> 0 <= sumZ l.
Proof. induction 1; cbn; lia. Qed.

Lemma lenZ_app {A} (a b : list A) : lenZ (a ++ b) = lenZ a + lenZ b.
Proof. unfold lenZ. rewrite app_length. lia. Qed.

Lemma lenZ_perm {A} (a b : list A) : Permutation a b -> lenZ a = lenZ b.
Proof. intros H. unfold lenZ. rewrite (Permutation_length H). reflexivity. Qed.

Lemma map_nth_seq {A} (l : list A) d : map (fun i => nth i l d) (seq 0 (length l)) = l.
Proof.
  induction l as [|x r IH]; cbn; [reflexivity|]. f_equal.
  rewrite <- seq_shift, map_map. exact IH.
Qed.

(* ---------- concat / NoDup ---------- *)
Lemma concat_perm {A} (l1 l2 : list (list A)) :
  Forall2 (@Permutation A) l1 l2 -> Permutation (concat l1) (concat l2).
Proof. induction 1; cbn; [constructor|]. apply Permutation_app; assumption. Qed.

Lemma concat_perm_outer {A} (l1 l2 : list (list A)) :
  Permutation l1 l2 -> Permutation (concat l1) (concat l2).
Proof.
  induction 1 as [|x l l' H IH|x y l|l l' l'' H1 IH1 H2 IH2]; cbn.
  - constructor.
  - apply Permutation_app_head, IH.
  - rewrite !app_assoc. apply Permutation_app_tail, Permutation_app_comm.
  - etransitivity; eassumption.
Qed.

Lemma NoDup_app_iff {A} (a b : list A) :
  NoDup (a ++ b) <-> NoDup a /\ NoDup b /\ (forall x, In x a -> ~ In x b).
Proof.
  induction a as [|x r IH]; cbn.
  - split; [intros H; split; [constructor|split; [exact H|tauto]]|tauto].
  - split.
    + intros H. inversion H as [|? ? Hni Hnd]; subst. apply IH in Hnd.
      destruct Hnd as (Hr & Hb & Hd). rewrite in_app_iff in Hni.
      split; [constructor; tauto|]. split; [exact Hb|].
      intros y [->|Hy]; [tauto|apply Hd, Hy].
    + intros (Hxr & Hb & Hd). inversion Hxr as [|? ? Hni Hr]; subst.
      constructor.
      * rewrite in_app_iff. intros [H|H]; [contradiction|]. apply (Hd x); auto.
      * apply IH. split; [exact Hr|]. split; [exact Hb|]. intros y Hy; apply Hd; auto.
Qed.

Lemma NoDup_perm {A} (a b : list A) : Permutation a b -> NoDup a -> NoDup b.
Proof. apply Permutation_NoDup. Qed.

Lemma firstn_skipn_perm {A} k (l : list A) : Permutation (skipn k l ++ firstn k l) l.
Proof. rewrite Permutation_app_comm, firstn_skipn. reflexivity. Qed.

(* grouping a list by the value of a function *)
Lemma filter_partition_perm {A} (f : A -> bool) l :
  Permutation (filter f l ++ filter (fun x => negb (f x)) l) l.
Proof.
  induction l as [|x r IH]; cbn; [constructor|].
  destruct (f x); cbn.
  - constructor; exact IH.
  - etransitivity; [symmetry; apply Permutation_middle|]. constructor; exact IH.
Qed.

Lemma filter_andb {A} (f g : A -> bool) l :
  filter f (filter g l) = filter (fun x => g x && f x) l.
Proof.
  induction l as [|x r IH]; cbn; [reflexivity|].
  destruct (g x); cbn; [destruct (f x); cbn; rewrite IH; reflexivity|exact IH].
Qed.

Lemma filter_all {A} (f : A -> bool) l : (forall x, In x l -> f x = true) -> filter f l = l.
Proof.
  induction l as [|x r IH]; cbn; intros H; [reflexivity|].
  rewrite H by (left; reflexivity). f_equal. apply IH. intros y Hy; apply H; auto.
Qed.

Lemma filter_none {A} (f : A -> bool) l : (forall x, In x l -> f x = false) -> filter f l = [].
Proof.
  induction l as [|x r IH]; cbn; intros H; [reflexivity|].
  rewrite H by (left; reflexivity). apply IH. intros y Hy; apply H; auto.
Qed.

Lemma Permutation_filter {A} (f : A -> bool) l1 l2 :
  Permutation l1 l2 -> Permutation (filter f l1) (filter f l2).
Proof.
  induction 1 as [|x l l' H IH|x y l|l l' l'' H1 IH1 H2 IH2]; cbn.
  - constructor.
  - destruct (f x); [constructor|]; exact IH.
  - destruct (f x), (f y); try reflexivity. apply perm_swap.
  - etransitivity; eassumption.
Qed.

Lemma group_by_perm {A} (g : A -> Z) (classes : list Z) (l : list A) :
  NoDup classes -> (forall x, In x l -> In (g x) classes) ->
  Permutation (concat (map (fun c => filter (fun x => g x =? c) l) classes)) l.
Proof.
  revert l; induction classes as [|c cr IH]; intros l Hnd Hin.
  - destruct l as [|x r]; [constructor|]. elim (Hin x). left; reflexivity.
  - inversion Hnd as [|? ? Hni Hnd']; subst. cbn [map concat].
    transitivity (filter (fun x => g x =? c) l ++ filter (fun x => negb (g x =? c)) l);
      [|apply filter_partition_perm].
    apply Permutation_app_head.
    rewrite <- (IH (filter (fun x => negb (g x =? c)) l)); [|exact Hnd'|].
    + replace (map (fun c0 => filter (fun x => g x =? c0) l) cr)
        with (map (fun c0 => filter (fun x => g x =? c0)
                               (filter (fun x => negb (g x =? c)) l)) cr); [reflexivity|].
      apply map_ext_in. intros d Hd. rewrite filter_andb. apply filter_ext. intros x.
      destruct (Z.eqb_spec (g x) d) as [->|]; [|apply andb_false_r].
      destruct (Z.eqb_spec d c) as [->|]; [contradiction|reflexivity].
    + intros x Hx. apply filter_In in Hx. destruct Hx as [Hx Hne].
      destruct (Hin x Hx) as [He|]; [|assumption].
      rewrite <- He, Z.eqb_refl in Hne. discriminate.
Qed.

Lemma countZ_filter {A} (g : A -> Z) c l :
  countZ c (map g l) = lenZ (filter (fun x => g x =? c) l).
Proof.
  unfold countZ, lenZ. f_equal. induction l as [|x r IH]; [reflexivity|].
  cbn [map filter]. destruct (Z.eqb_spec (g x) c) as [->|Hne].
  - rewrite count_occ_cons_eq by reflexivity. cbn. f_equal. exact IH.
  - rewrite count_occ_cons_neq by assumption. exact IH.
Qed.

Lemma countZ_nonneg c l : 0 <= countZ c l.
Proof. unfold countZ; lia. Qed.

Lemma countZ_pos c l : In c l <-> 0 < countZ c l.
Proof. unfold countZ. rewrite (count_occ_In Z.eq_dec). lia. Qed.

Lemma sum_counts_unique (ys classes : list Z) :
  NoDup classes -> (forall y, In y ys -> In y classes) ->
  sumZ (map (fun c => countZ c ys) classes) = lenZ ys.
Proof.
  intros Hnd Hin.
  pose proof (group_by_perm (fun x => x) classes ys Hnd Hin) as Hp.
  rewrite <- (lenZ_perm _ _ Hp). clear Hp Hnd Hin.
  induction classes as [|c cr IH]; cbn [map concat sumZ]; [reflexivity|].
  rewrite lenZ_app, <- IH. f_equal.
  rewrite <- (map_id ys) at 1. rewrite countZ_filter. reflexivity.
Qed.

(* membership in a permutation *)
Lemma perm_In {A} (a b : list A) x : Permutation a b -> (In x a <-> In x b).
Proof. intros H; split; apply Permutation_in; [exact H|symmetry; exact H]. Qed.

Lemma nth_In_or_default {A} (l : list A) i d : In (nth i l d) l \/ nth i l d = d.
Proof. destruct (nth_in_or_default i l d); auto. Qed.

Lemma Forall2_nth {A B} (R : A -> B -> Prop) l1 l2 d1 d2 :
  length l1 = length l2 ->
  (forall i, (i < length l1)%nat -> R (nth i l1 d1) (nth i l2 d2)) -> Forall2 R l1 l2.
Proof.
  revert l2; induction l1 as [|x r IH]; intros [|y t] Hl H; cbn in Hl; try lia; constructor.
  - apply (H 0%nat). cbn; lia.
  - apply IH; [lia|]. intros i Hi. apply (H (S i)). cbn; lia.
Qed.

Lemma Forall2_nth_inv {A B} (R : A -> B -> Prop) l1 l2 d1 d2 i :
  Forall2 R l1 l2 -> (i < length l1)%nat -> R (nth i l1 d1) (nth i l2 d2).
Proof.
  intros H; revert i; induction H as [|x y r t Hxy Hr IH]; intros [|i] Hi; cbn in *; try lia;
    [exact Hxy|apply IH; lia].
Qed.

(* permutations of concatenations of integer lists, by counting occurrences *)
Ltac perm_count :=
  apply (proj2 (Permutation_count_occ Z.eq_dec _ _)); intros ?; cbn [app];
  repeat (rewrite ?count_occ_app; cbn [count_occ]); repeat (destruct (Z.eq_dec _ _)); lia.

Lemma Forall2_length {A B} (R : A -> B -> Prop) l1 l2 : Forall2 R l1 l2 -> length l1 = length l2.
Proof. induction 1; cbn; congruence. Qed.
