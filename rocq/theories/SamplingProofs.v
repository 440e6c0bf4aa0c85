(* Lemmas about the splitters of SamplingModel.v. *)
From Coq Require Import ZifyBool ZifyNat.
From Verif Require Import Prelude ListFacts FloatModel FloatProofs SamplingSpec SamplingModel.
Ltac Zify.zify_post_hook ::= Z.div_mod_to_equations.

(* ---------- class_counts: both code paths agree ---------- *)
Lemma minZ_le l x : In x l -> minZ l <= x.
Proof.
  unfold minZ. generalize (hd 0 l). induction l as [|a r IH]; cbn; [tauto|].
  intros d [->|H]; [lia|]. specialize (IH d H). lia.
Qed.
Lemma maxZ_ge l x : In x l -> x <= maxZ l.
Proof.
  unfold maxZ. generalize (hd 0 l). induction l as [|a r IH]; cbn; [tauto|].
  intros d [->|H]; [lia|]. specialize (IH d H). lia.
Qed.

Lemma bincount_nth ys m c : 0 <= c < m -> nth (Z.to_nat c) (bincount ys m) 0 = countZ c ys.
Proof.
  intros Hc. unfold bincount, arange. rewrite map_map.
  rewrite (nth_indep _ 0 (countZ (Z.of_nat 0) ys)) by (rewrite map_length, seq_length; lia).
  rewrite (map_nth (fun x => countZ (Z.of_nat x) ys) (seq 0 (Z.to_nat m)) 0%nat).
  rewrite seq_nth by lia. f_equal. lia.
Qed.

Lemma class_counts_eq ys : class_counts ys = unique_counts ys.
Proof.
  unfold class_counts. destruct ys as [|y0 yr] eqn:E; [reflexivity|]. rewrite <- E.
  destruct ((0 <=? minZ ys) && (maxZ ys <=? 1000000)) eqn:Hb; [|reflexivity].
  assert (Hmin : forall x, In x ys -> 0 <= x) by (intros x Hx; apply minZ_le in Hx; lia).
  assert (Hmax : forall x, In x ys -> x < maxZ ys + 1) by (intros x Hx; apply maxZ_ge in Hx; lia).
  assert (Hc : filter (fun c => negb (nth (Z.to_nat c) (bincount ys (maxZ ys + 1)) 0 =? 0))
                 (arange (maxZ ys + 1)) = uniqueZ ys).
  { apply ascending_ext.
    - apply StronglySorted_filter, arange_ascending.
    - apply uniqueZ_ascending.
    - intros x. rewrite filter_In, uniqueZ_In, arange_In. split.
      + intros [Hr Hx]. rewrite bincount_nth in Hx by exact Hr.
        apply countZ_pos. pose proof (countZ_nonneg x ys). lia.
      + intros Hx. split; [split; auto|]. rewrite bincount_nth by (split; auto).
        apply countZ_pos in Hx. lia. }
  cbv zeta. rewrite Hc. unfold unique_counts. f_equal.
  apply map_ext_in. intros c Hin. rewrite uniqueZ_In in Hin.
  apply bincount_nth. split; auto.
Qed.

(* facts about the class list of a non-empty index list *)
Lemma classes_cover (lab : Z -> Z) idx x : In x idx -> In (lab x) (uniqueZ (map lab idx)).
Proof. intros H. apply uniqueZ_In, in_map, H. Qed.

Lemma of_class_count (lab : Z -> Z) idx c : countZ c (map lab idx) = lenZ (of_class lab idx c).
Proof. apply countZ_filter. Qed.

Lemma classes_group (lab : Z -> Z) idx :
  Permutation (concat (map (of_class lab idx) (uniqueZ (map lab idx)))) idx.
Proof.
  apply group_by_perm; [apply uniqueZ_NoDup|]. intros x; apply classes_cover.
Qed.

Lemma unique_counts_sum (lab : Z -> Z) idx :
  sumZ (snd (unique_counts (map lab idx))) = lenZ idx.
Proof.
  cbn. rewrite sum_counts_unique; [|apply uniqueZ_NoDup|intros; apply uniqueZ_In; assumption].
  unfold lenZ. rewrite map_length. reflexivity.
Qed.

Lemma unique_counts_pos ys : Forall (fun c => 0 < c) (snd (unique_counts ys)).
Proof.
  cbn. apply Forall_forall. intros x Hx. apply in_map_iff in Hx.
  destruct Hx as (c & <- & Hc). apply countZ_pos, uniqueZ_In, Hc.
Qed.

(* ---------- bump_all ---------- *)
Lemma bump_all_length b pos : length (bump_all b pos) = length b.
Proof.
  revert b; induction pos as [|i r IH]; intros b; cbn; [reflexivity|].
  unfold bump_all in IH. rewrite IH, update_length. reflexivity.
Qed.

Lemma bump_all_sum b pos : Forall (fun i => (i < length b)%nat) pos ->
  sumZ (bump_all b pos) = sumZ b + lenZ pos.
Proof.
  revert b; induction pos as [|i r IH]; intros b H; cbn; [unfold lenZ; cbn; lia|].
  inversion H as [|? ? Hi Hr]; subst.
  fold (bump_all (update b i (fun v => v + 1)) r). rewrite IH.
  - rewrite update_sum by assumption. unfold lenZ; cbn [length]. lia.
  - rewrite update_length. exact Hr.
Qed.

Lemma bump_all_nth b pos j : Forall (fun i => (i < length b)%nat) pos -> NoDup pos ->
  nth j (bump_all b pos) 0 = nth j b 0 + (if in_dec Nat.eq_dec j pos then 1 else 0).
Proof.
  revert b; induction pos as [|i r IH]; intros b H Hnd.
  - cbn. lia.
  - inversion H as [|? ? Hi Hr]; subst. inversion Hnd as [|? ? Hni Hnd']; subst.
    cbn [bump_all fold_left]. fold (bump_all (update b i (fun v => v + 1)) r).
    rewrite IH; [|rewrite update_length; exact Hr|exact Hnd'].
    rewrite update_nth by exact Hi.
    destruct (Nat.eqb_spec j i) as [->|Hne].
    + destruct (in_dec Nat.eq_dec i r) as [Hin|_]; [contradiction|].
      destruct (in_dec Nat.eq_dec i (i :: r)) as [_|Hn]; [lia|]. elim Hn; left; reflexivity.
    + destruct (in_dec Nat.eq_dec j r) as [Hin|Hnin];
      destruct (in_dec Nat.eq_dec j (i :: r)) as [Hin'|Hnin']; try lia.
      * elim Hnin'; right; exact Hin.
      * destruct Hin' as [->|]; [elim Hne; reflexivity|contradiction].
Qed.

Lemma firstn_incl {A} n (l : list A) x : In x (firstn n l) -> In x l.
Proof. intros H. rewrite <- (firstn_skipn n l). apply in_or_app. left; exact H. Qed.

Lemma NoDup_firstn {A} n (l : list A) : NoDup l -> NoDup (firstn n l).
Proof.
  intros H. rewrite <- (firstn_skipn n l) in H. apply NoDup_app_iff in H. tauto.
Qed.

Lemma argsort_positions ord keys n : argsort_valid ord ->
  Forall (fun i => (i < length keys)%nat) (firstn n (ord keys)) /\
  NoDup (firstn n (ord keys)) /\ length (ord keys) = length keys.
Proof.
  intros Hv. specialize (Hv keys). split; [|split].
  - apply Forall_forall. intros i Hi. apply firstn_incl in Hi.
    rewrite Hv in Hi. apply in_seq in Hi. lia.
  - apply NoDup_firstn. eapply Permutation_NoDup; [symmetry; exact Hv|apply seq_NoDup].
  - rewrite (Permutation_length Hv), seq_length. reflexivity.
Qed.

(* ---------- proportional allocation ---------- *)
Lemma floors_sum counts n total : 0 < total ->
  total * sumZ (map (fun c => c * n / total) counts) + sumZ (map (fun c => c * n mod total) counts)
  = n * sumZ counts.
Proof.
  intros Ht. induction counts as [|c r IH]; cbn [map sumZ]; [lia|].
  pose proof (Z.div_mod (c * n) total ltac:(lia)). nia.
Qed.

Lemma mods_bound (counts : list Z) n total : 0 < total ->
  0 <= sumZ (map (fun c => c * n mod total) counts) <= lenZ counts * (total - 1).
Proof.
  intros Ht. induction counts as [|c r IH]; cbn [map sumZ].
  - unfold lenZ; cbn; lia.
  - pose proof (Z.mod_pos_bound (c * n) total Ht). unfold lenZ in *; cbn [length]. nia.
Qed.

Lemma proportional_remaining counts n : 0 < sumZ counts ->
  let total := sumZ counts in
  let remaining := n - sumZ (map (fun c => c * n / total) counts) in
  0 <= remaining <= lenZ counts.
Proof.
  intros Ht. cbv zeta. set (total := sumZ counts) in *.
  pose proof (floors_sum counts n total Ht) as H1.
  pose proof (mods_bound counts n total Ht) as H2. fold total in H1.
  assert (0 <= lenZ counts) by (unfold lenZ; lia). nia.
Qed.

Lemma proportional_length ord counts n total :
  length (proportional ord counts n total) = length counts.
Proof.
  unfold proportional. destruct (0 <? _); [rewrite bump_all_length|]; apply map_length.
Qed.

Lemma proportional_sum ord counts n : argsort_valid ord -> 0 < sumZ counts ->
  sumZ (proportional ord counts n (sumZ counts)) = n.
Proof.
  intros Hv Ht. pose proof (proportional_remaining counts n Ht) as Hr. cbv zeta in Hr.
  unfold proportional. destruct (Z.ltb_spec 0 (n - sumZ (map (fun c => c * n / sumZ counts) counts)))
    as [Hpos|Hz]; [|lia].
  match goal with |- context [firstn ?k (ord ?ks)] =>
    destruct (argsort_positions ord ks k Hv) as (Hf & Hnd & Hl) end.
  rewrite map_length in Hl.
  rewrite bump_all_sum.
  - unfold lenZ in *. rewrite firstn_length, Hl. lia.
  - rewrite map_length. rewrite map_length in Hf. exact Hf.
Qed.

Lemma nth_map_Z (f : Z -> Z) l j : (j < length l)%nat -> nth j (map f l) 0 = f (nth j l 0).
Proof. intros H. rewrite (nth_indep _ 0 (f 0)) by (rewrite map_length; exact H). apply map_nth. Qed.

Lemma proportional_nth ord counts n total j : argsort_valid ord -> (j < length counts)%nat ->
  let fl := nth j counts 0 * n / total in
  fl <= nth j (proportional ord counts n total) 0 <= fl + 1.
Proof.
  intros Hv Hj. cbv zeta. unfold proportional.
  destruct (0 <? _).
  - match goal with |- context [firstn ?k (ord ?ks)] =>
      destruct (argsort_positions ord ks k Hv) as (Hf & Hnd & Hl) end.
    rewrite map_length in Hl.
    rewrite bump_all_nth; [|rewrite map_length in *; exact Hf|exact Hnd].
    rewrite nth_map_Z by exact Hj.
    destruct (in_dec _ _ _); lia.
  - rewrite nth_map_Z by exact Hj. lia.
Qed.

(* a class with an integral share is not topped up, because positive remainders come first *)
Lemma sorted_firstn_prefix {A} (R : A -> A -> Prop) l k x y :
  (forall a b c, R a b -> R b c -> R a c) -> Sorted R l ->
  In x (firstn k l) -> In y (skipn k l) -> R x y.
Proof.
  intros Htr Hs. apply Sorted_StronglySorted in Hs; [|exact Htr].
  revert k; induction Hs as [|a r Hs IH Hf]; intros k Hx Hy.
  - rewrite firstn_nil in Hx. contradiction.
  - destruct k as [|k]; cbn in *; [contradiction|].
    destruct Hx as [->|Hx].
    + rewrite Forall_forall in Hf. apply Hf. rewrite <- (firstn_skipn k r). apply in_or_app; auto.
    + eapply IH; eassumption.
Qed.

Lemma sum_le_count_pos (keys : list Z) (f : nat -> Z) (pos : list nat) total :
  0 < total ->
  (forall i, 0 <= f i < total) -> (forall i, In i pos -> f i = 0) ->
  forall rest, sumZ (map f (pos ++ rest)) <= lenZ rest * (total - 1).
Proof.
  intros Ht Hb Hz rest. rewrite map_app, sumZ_app.
  assert (sumZ (map f pos) = 0) as ->.
  { clear rest. induction pos as [|i r IH]; cbn; [reflexivity|].
    rewrite Hz by (left; reflexivity). rewrite IH; [lia|]. intros; apply Hz; right; assumption. }
  induction rest as [|i r IH]; unfold lenZ in *; cbn [map sumZ length]; [lia|].
  pose proof (Hb i). nia.
Qed.

Lemma proportional_zero_remainder ord counts n j :
  argsort_valid ord -> argsort_sorted ord ->
  0 < sumZ counts -> (j < length counts)%nat ->
  (nth j counts 0 * n) mod sumZ counts = 0 ->
  nth j (proportional ord counts n (sumZ counts)) 0 = nth j counts 0 * n / sumZ counts.
Proof.
  intros Hv Hso Ht Hj Hm. set (total := sumZ counts) in *.
  unfold proportional.
  set (rem := n - sumZ (map (fun c => c * n / total) counts)).
  destruct (Z.ltb_spec 0 rem) as [Hpos|Hz].
  2:{ rewrite nth_map_Z by exact Hj. reflexivity. }
  set (keys := map (fun c => - (c * n mod total)) counts).
  destruct (argsort_positions ord keys (Z.to_nat rem) Hv) as (Hf & Hnd & Hl).
  assert (Hlk : length keys = length counts) by apply map_length.
  rewrite bump_all_nth; [|rewrite map_length; rewrite Hlk in Hf; exact Hf|exact Hnd].
  rewrite nth_map_Z by exact Hj.
  destruct (in_dec Nat.eq_dec j (firstn (Z.to_nat rem) (ord keys))) as [Hin|_]; [exfalso|lia].
  (* everything after position rem has remainder 0 too, so the remainders sum to < rem*total *)
  pose (f := fun i => (nth i counts 0 * n) mod total).
  assert (Hfk : forall i, (i < length counts)%nat -> nth i keys 0 = - f i).
  { intros i Hi. unfold keys. rewrite nth_map_Z by exact Hi. reflexivity. }
  assert (Hfb : forall i, 0 <= f i < total) by (intros i; apply Z.mod_pos_bound; exact Ht).
  assert (Hafter : forall i, In i (skipn (Z.to_nat rem) (ord keys)) -> f i = 0).
  { intros i Hi.
    assert (Hii : (i < length counts)%nat).
    { assert (In i (ord keys)) as Hi' by (rewrite <- (firstn_skipn (Z.to_nat rem) (ord keys));
        apply in_or_app; right; exact Hi).
      rewrite (Hv keys) in Hi'. apply in_seq in Hi'. lia. }
    assert (nth j keys 0 <= nth i keys 0) as Hle.
    { eapply (sorted_firstn_prefix (fun a b => nth a keys 0 <= nth b keys 0));
        [intros; lia|apply Hso|exact Hin|exact Hi]. }
    rewrite !Hfk in Hle by assumption. unfold f in Hle at 1. rewrite Hm in Hle.
    specialize (Hfb i). lia. }
  assert (Hsum : sumZ (map f (seq 0 (length counts))) = total * rem).
  { pose proof (floors_sum counts n total Ht) as H1. fold total in H1.
    assert (map f (seq 0 (length counts)) = map (fun c => c * n mod total) counts) as ->.
    { rewrite <- (map_nth_seq counts 0) at 2. rewrite map_map. reflexivity. }
    unfold rem. lia. }
  assert (Hperm : sumZ (map f (ord keys)) = total * rem).
  { rewrite <- Hsum, <- Hlk. apply sumZ_perm, Permutation_map, Hv. }
  assert (Hj0 : f j = 0) by exact Hm.
  (* split the prefix around j *)
  destruct (in_split _ _ Hin) as (l1 & l2 & El).
  rewrite <- (firstn_skipn (Z.to_nat rem) (ord keys)) in Hperm.
  pose proof (sum_le_count_pos keys f (j :: skipn (Z.to_nat rem) (ord keys)) total Ht Hfb) as Hb.
  assert (sumZ (map f ((j :: skipn (Z.to_nat rem) (ord keys)) ++ (l1 ++ l2)))
          <= lenZ (l1 ++ l2) * (total - 1)) as Hb'.
  { apply Hb. intros i [<-|Hi]; [exact Hj0|apply Hafter, Hi]. }
  assert (Hp2 : sumZ (map f ((j :: skipn (Z.to_nat rem) (ord keys)) ++ (l1 ++ l2))) = total * rem).
  { rewrite <- Hperm. apply sumZ_perm, Permutation_map. rewrite El.
    cbn [app]. rewrite (Permutation_app_comm (skipn _ _) (l1 ++ l2)).
    apply (Permutation_app_tail _ (l := j :: (l1 ++ l2)) (l' := l1 ++ j :: l2)).
    apply Permutation_middle. }
  assert (lenZ (l1 ++ l2) < rem).
  { assert (lenZ (firstn (Z.to_nat rem) (ord keys)) <= rem) as Hle.
    { unfold lenZ. rewrite firstn_length. lia. }
    rewrite El in Hle. rewrite lenZ_app in *. unfold lenZ in *. cbn [length] in Hle. lia. }
  assert (0 <= lenZ (l1 ++ l2)) by (unfold lenZ; lia).
  nia.
Qed.

(* ---------- the per-class loop of stratified_holdout ---------- *)
Lemma holdout_loop_spec R s lab indices classes base keep hold s' :
  length base = length classes ->
  holdout_loop R s lab indices classes base = (keep, hold, s') ->
  Permutation (keep ++ hold) (concat (map (of_class lab indices) classes)) /\
  lenZ hold = sumZ (map (fun p => Z.min (Z.max (snd p) 0) (lenZ (of_class lab indices (fst p))))
                        (combine classes base)) /\
  (forall x, In x (keep ++ hold) -> In (lab x) classes).
Proof.
  revert s base keep hold s'; induction classes as [|c cr IH]; intros s [|b br] keep hold s' Hl E;
    cbn in Hl; try lia; cbn in E.
  - injection E as <- <- <-. cbn. repeat split; [constructor|tauto].
  - destruct (permutation R s (of_class lab indices c)) as [p s1] eqn:Ep.
    pose proof (permutation_ok R s (of_class lab indices c)) as Hp. rewrite Ep in Hp. cbn in Hp.
    destruct (holdout_loop R s1 lab indices cr br) as [[k2 h2] s2] eqn:Er.
    injection E as <- <- <-.
    destruct (IH s1 br k2 h2 s2 ltac:(lia) Er) as (H1 & H2 & H3).
    set (k := Z.to_nat (Z.min (Z.max b 0) (lenZ p))).
    split; [|split].
    + cbn [map concat]. rewrite <- Hp, <- H1.
      transitivity ((skipn k p ++ firstn k p) ++ k2 ++ h2); [perm_count|].
      apply Permutation_app_tail, firstn_skipn_perm.
    + cbn [combine map sumZ fst snd]. rewrite lenZ_app, H2. f_equal.
      pose proof (lenZ_perm _ _ Hp) as Hlen. unfold k. unfold lenZ in *.
      rewrite firstn_length. lia.
    + intros x Hx. rewrite !in_app_iff in Hx.
      assert (Hcl : In x p -> lab x = c).
      { intros Hin. rewrite Hp in Hin. unfold of_class in Hin. apply filter_In in Hin. lia. }
      destruct Hx as [[Hx|Hx]|[Hx|Hx]].
      * left. symmetry. apply Hcl. rewrite <- (firstn_skipn k p). apply in_or_app; auto.
      * right. apply H3. apply in_or_app; auto.
      * left. symmetry. apply Hcl. rewrite <- (firstn_skipn k p). apply in_or_app; auto.
      * right. apply H3. apply in_or_app; auto.
Qed.

Lemma of_class_app lab a b c : of_class lab (a ++ b) c = of_class lab a c ++ of_class lab b c.
Proof. apply filter_app. Qed.

Lemma of_class_nil lab l c : (forall x, In x l -> lab x <> c) -> of_class lab l c = [].
Proof. intros H. apply filter_none. intros x Hx. apply Z.eqb_neq, H, Hx. Qed.

Lemma of_class_all lab l c : (forall x, In x l -> lab x = c) -> of_class lab l c = l.
Proof. intros H. apply filter_all. intros x Hx. apply Z.eqb_eq, H, Hx. Qed.

Lemma holdout_loop_class R s lab indices classes base keep hold s' j :
  NoDup classes -> length base = length classes ->
  holdout_loop R s lab indices classes base = (keep, hold, s') ->
  (j < length classes)%nat ->
  lenZ (of_class lab hold (nth j classes 0)) =
    Z.min (Z.max (nth j base 0) 0) (lenZ (of_class lab indices (nth j classes 0))).
Proof.
  revert s base keep hold s' j; induction classes as [|c cr IH];
    intros s [|b br] keep hold s' j Hnd Hl E Hj; cbn in Hl, Hj; try lia; cbn in E.
  destruct (permutation R s (of_class lab indices c)) as [p s1] eqn:Ep.
  pose proof (permutation_ok R s (of_class lab indices c)) as Hp. rewrite Ep in Hp. cbn in Hp.
  destruct (holdout_loop R s1 lab indices cr br) as [[k2 h2] s2] eqn:Er.
  injection E as <- <- <-.
  inversion Hnd as [|? ? Hni Hnd']; subst.
  assert (Hl' : length br = length cr) by lia.
  destruct (holdout_loop_spec _ _ _ _ _ _ _ _ _ Hl' Er) as (_ & _ & H3).
  assert (Hcl : forall x, In x p -> lab x = c).
  { intros x Hin. rewrite Hp in Hin. unfold of_class in Hin. apply filter_In in Hin. lia. }
  set (k := Z.to_nat (Z.min (Z.max b 0) (lenZ p))).
  rewrite of_class_app, lenZ_app.
  destruct j as [|j]; cbn [nth].
  - rewrite (of_class_all lab (firstn k p) c) by (intros x Hx; apply Hcl; eapply firstn_incl, Hx).
    rewrite (of_class_nil lab h2 c).
    2:{ intros x Hx Hc. apply Hni. rewrite <- Hc. apply H3. apply in_or_app; auto. }
    pose proof (lenZ_perm _ _ Hp) as Hlen. unfold k, lenZ in *.
    rewrite firstn_length. cbn [length]. lia.
  - rewrite (of_class_nil lab (firstn k p)).
    2:{ intros x Hx Hc. apply Hni. rewrite (Hcl x) in Hc by (eapply firstn_incl, Hx).
        rewrite Hc. apply nth_In. lia. }
    rewrite (IH s1 br k2 h2 s2 j Hnd' Hl' Er ltac:(lia)).
    unfold lenZ; cbn [length]. lia.
Qed.

(* the allocation never exceeds the class sizes, so the clamp in the loop is inactive *)
Lemma proportional_bounds ord counts n j :
  argsort_valid ord -> Forall (fun c => 0 < c) counts -> 0 <= n < sumZ counts ->
  (j < length counts)%nat ->
  0 <= nth j (proportional ord counts n (sumZ counts)) 0 <= nth j counts 0.
Proof.
  intros Hv Hpos Hn Hj.
  pose proof (proportional_nth ord counts n (sumZ counts) j Hv Hj) as Hb. cbv zeta in Hb.
  rewrite Forall_forall in Hpos. specialize (Hpos (nth j counts 0) (nth_In _ _ Hj)).
  assert (0 <= nth j counts 0 * n / sumZ counts) by (apply Z.div_pos; nia).
  assert (nth j counts 0 * n / sumZ counts < nth j counts 0)
    by (apply Z.div_lt_upper_bound; nia).
  lia.
Qed.

Lemma sum_min_combine (f : Z -> Z) classes base :
  length base = length classes ->
  (forall j, (j < length classes)%nat -> 0 <= nth j base 0 <= f (nth j classes 0)) ->
  sumZ (map (fun p => Z.min (Z.max (snd p) 0) (f (fst p))) (combine classes base)) = sumZ base.
Proof.
  revert base; induction classes as [|c cr IH]; intros [|b br] Hl H; cbn in Hl; try lia;
    [reflexivity|].
  cbn [combine map sumZ fst snd]. rewrite IH; [|lia|].
  - pose proof (H 0%nat ltac:(cbn; lia)) as H0. cbn in H0. lia.
  - intros j Hj. apply (H (S j)). cbn; lia.
Qed.

Lemma nth_counts (lab : Z -> Z) idx j : (j < length (uniqueZ (map lab idx)))%nat ->
  nth j (snd (unique_counts (map lab idx))) 0 =
  lenZ (of_class lab idx (nth j (uniqueZ (map lab idx)) 0)).
Proof.
  intros Hj. cbn. rewrite (nth_map_Z (fun c => countZ c (map lab idx))) by exact Hj.
  apply of_class_count.
Qed.

Lemma stratified_holdout_spec R ord s lab indices n keep hold s' :
  argsort_valid ord -> 0 <= n <= lenZ indices ->
  stratified_holdout R ord s lab indices n = (keep, hold, s') ->
  Permutation (keep ++ hold) indices /\ lenZ hold = n /\
  StronglySorted Z.le keep /\ StronglySorted Z.le hold.
Proof.
  intros Hv Hn E. unfold stratified_holdout in E.
  destruct (Z.leb_spec n 0) as [H0|H0].
  { injection E as <- <- <-. rewrite app_nil_r. repeat split.
    - apply sortZ_perm. - unfold lenZ; cbn; lia. - apply sortZ_sorted. - constructor. }
  destruct (Z.leb_spec (lenZ indices) n) as [H1|H1].
  { injection E as <- <- <-. repeat split.
    - apply sortZ_perm. - unfold lenZ in *; rewrite sortZ_length; lia.
    - constructor. - apply sortZ_sorted. }
  rewrite class_counts_eq in E.
  destruct (unique_counts (map lab indices)) as [classes counts] eqn:Ec.
  assert (Hcl : classes = uniqueZ (map lab indices)) by (injection Ec as <- _; reflexivity).
  pose proof (unique_counts_sum lab indices) as Hsum. rewrite Ec in Hsum. cbn in Hsum.
  pose proof (unique_counts_pos (map lab indices)) as Hpos. rewrite Ec in Hpos. cbn in Hpos.
  assert (Hlc : length counts = length classes).
  { injection Ec as <- <-. apply map_length. }
  assert (Hlp : length (proportional ord counts n (lenZ indices)) = length classes)
    by (rewrite proportional_length; exact Hlc).
  destruct (holdout_loop R s lab indices classes _) as [[k h] s1] eqn:El.
  injection E as <- <- <-.
  destruct (holdout_loop_spec _ _ _ _ _ _ _ _ _
              Hlp El) as (Hp & Hs & _).
  rewrite Hcl in Hp at 1.
  split; [|split; [|split; apply sortZ_sorted]].
  - rewrite !sortZ_perm, Hp. apply classes_group.
  - unfold lenZ. rewrite sortZ_length. fold (lenZ h). rewrite Hs.
    rewrite (sum_min_combine (fun c => lenZ (of_class lab indices c))); [rewrite <- Hsum; apply proportional_sum; [exact Hv|lia]
                             |rewrite proportional_length; exact Hlc|].
    intros j Hj. rewrite <- Hsum.
    pose proof (proportional_bounds ord counts n j Hv Hpos ltac:(lia) ltac:(lia)) as Hb.
    pose proof (nth_counts lab indices j) as Hnc. rewrite Ec in Hnc. cbn [snd] in Hnc.
    rewrite <- Hcl in Hnc. specialize (Hnc Hj). lia.
Qed.

Lemma random_split_spec R s indices n keep hold s' :
  0 <= n <= lenZ indices ->
  random_split R s indices n = (keep, hold, s') ->
  Permutation (keep ++ hold) indices /\ lenZ hold = n /\
  (StronglySorted Z.le indices -> StronglySorted Z.le keep /\ StronglySorted Z.le hold).
Proof.
  intros Hn E. unfold random_split in E.
  destruct (Z.leb_spec n 0) as [H0|H0].
  { injection E as <- <- <-. rewrite app_nil_r. repeat split.
    - reflexivity. - unfold lenZ; cbn; lia. - assumption. - constructor. }
  destruct (Z.leb_spec (lenZ indices) n) as [H1|H1].
  { injection E as <- <- <-. repeat split.
    - reflexivity. - unfold lenZ in *; lia. - constructor. - assumption. }
  pose proof (permutation_ok R s indices) as Hp.
  destruct (permutation R s indices) as [p s1]. injection E as <- <- <-. cbn in Hp.
  split; [|split].
  - rewrite !sortZ_perm, firstn_skipn_perm. exact Hp.
  - apply lenZ_perm in Hp. unfold lenZ in *. rewrite sortZ_length, firstn_length. lia.
  - intros _. split; apply sortZ_sorted.
Qed.

Lemma holdout_part_spec R ord stratify s lab indices n keep hold s' :
  argsort_valid ord -> 0 <= n <= lenZ indices -> ascending indices ->
  holdout_part R ord stratify s lab indices n = (keep, hold, s') ->
  Permutation (keep ++ hold) indices /\ lenZ hold = n /\ ascending keep /\ ascending hold.
Proof.
  intros Hv Hn Ha E. unfold holdout_part in E.
  assert (Hsl : StronglySorted Z.le indices).
  { clear -Ha. induction Ha as [|x r Hs IH Hf]; constructor; [exact IH|].
    eapply Forall_impl; [|exact Hf]. cbn; lia. }
  assert (Hmain : Permutation (keep ++ hold) indices /\ lenZ hold = n /\
                  StronglySorted Z.le keep /\ StronglySorted Z.le hold).
  { destruct stratify.
    - eapply stratified_holdout_spec; eassumption.
    - destruct (random_split_spec _ _ _ _ _ _ _ Hn E) as (H1 & H2 & H3). tauto. }
  destruct Hmain as (Hp & Hl & Hk & Hh).
  assert (Hnd : NoDup (keep ++ hold)).
  { eapply Permutation_NoDup; [symmetry; exact Hp|apply ascending_NoDup, Ha]. }
  apply NoDup_app_iff in Hnd. destruct Hnd as (Hnk & Hnh & _).
  split; [exact Hp|]. split; [exact Hl|].
  split; apply sorted_le_NoDup_lt; assumption.
Qed.

(* from a permutation statement to the specification's partition *)
Lemma partition_of_perm (universe : Z -> Prop) (l : list Z) (parts : list (list Z)) :
  NoDup l -> (forall x, universe x <-> In x l) -> Permutation (concat parts) l ->
  (forall p, In p parts -> ascending p) -> is_partition universe parts.
Proof.
  intros Hnd Hu Hp Ha. split; [exact Ha| |].
  - intros x. rewrite Hu, <- Hp. rewrite in_concat. reflexivity.
  - assert (Hndc : NoDup (concat parts)) by (eapply Permutation_NoDup; [symmetry; exact Hp|exact Hnd]).
    clear -Hndc. induction parts as [|p r IH]; intros i j x Hij Hi Hj.
    + destruct i; contradiction.
    + cbn [concat] in Hndc. apply NoDup_app_iff in Hndc. destruct Hndc as (H1 & H2 & H3).
      assert (Hcat : forall m, In x (nth m r []) -> In x (concat r)).
      { intros m Hm. apply in_concat. destruct (nth_In_or_default r m []) as [Hin|He].
        - exists (nth m r []). tauto.
        - rewrite He in Hm. contradiction. }
      destruct i as [|i], j as [|j]; cbn [nth] in Hi, Hj; try lia.
      * apply (H3 x Hi). eapply Hcat, Hj.
      * apply (H3 x Hj). eapply Hcat, Hi.
      * apply (IH H2 i j x); auto.
Qed.

Lemma clamp_range n r : 0 <= n -> 0 <= Z.max 0 (Z.min n r) <= n.
Proof. lia. Qed.

(* C01 *)
Lemma make_holdout_split_spec R ord s n lab tf vf st sp :
  argsort_valid ord ->
  make_holdout_split R ord s n lab tf vf st = Ok sp ->
  0 <= n /\
  is_partition (fun x => 0 <= x < n) [train sp; val sp; test sp] /\
  share_size tf n (lenZ (test sp)) /\
  share_size vf (n - lenZ (test sp)) (lenZ (val sp)).
Proof.
  intros Hv E. unfold make_holdout_split in E.
  destruct (Z.ltb_spec n 0) as [|Hn]; [discriminate|].
  destruct (round_mul tf n) as [r|] eqn:Er; [cbn [bind] in E|discriminate].
  assert (Hla : lenZ (arange n) = n) by (unfold lenZ; rewrite arange_length; lia).
  destruct (holdout_part R ord st s lab (arange n) _) as [[tv te] s1] eqn:E1.
  destruct (holdout_part_spec _ _ _ _ _ _ _ _ _ _ Hv
             ltac:(rewrite Hla; apply clamp_range, Hn) (arange_ascending n) E1)
    as (Hp1 & Hl1 & Ha1 & Ha2).
  destruct (round_mul vf (lenZ tv)) as [rv|] eqn:Erv; [cbn [bind] in E|discriminate].
  destruct (holdout_part R ord st s1 lab tv _) as [[tr va] s2] eqn:E2.
  assert (Htv0 : 0 <= lenZ tv) by (unfold lenZ; lia).
  destruct (holdout_part_spec _ _ _ _ _ _ _ _ _ _ Hv (clamp_range _ rv Htv0) Ha1 E2)
    as (Hp2 & Hl2 & Ha3 & Ha4).
  injection E as <-. cbn [train val test].
  assert (Htv : lenZ tv = n - lenZ te).
  { apply lenZ_perm in Hp1. rewrite lenZ_app, Hla in Hp1. lia. }
  split; [exact Hn|]. split; [|split].
  - apply (partition_of_perm _ (arange n)).
    + apply arange_NoDup. + intros x; symmetry; apply arange_In.
    + cbn [concat]. rewrite app_nil_r, app_assoc, Hp2. exact Hp1.
    + intros p [<-|[<-|[<-|[]]]]; assumption.
  - exists r. split; [apply round_mul_spec, Er|]. unfold clampZ. exact Hl1.
  - exists rv. rewrite <- Htv. split; [apply round_mul_spec, Erv|]. unfold clampZ. exact Hl2.
Qed.

(* C02 *)
Lemma stratified_holdout_class R ord s lab indices n keep hold s' c :
  argsort_valid ord -> argsort_sorted ord -> 0 < n < lenZ indices ->
  stratified_holdout R ord s lab indices n = (keep, hold, s') ->
  let share := class_size lab c indices * n in
  let total := lenZ indices in
  share / total <= class_size lab c hold <= - (- share / total) /\
  class_size lab c hold <= class_size lab c indices.
Proof.
  intros Hv Hso Hn E. cbv zeta. unfold stratified_holdout in E.
  destruct (Z.leb_spec n 0) as [H0|H0]; [lia|].
  destruct (Z.leb_spec (lenZ indices) n) as [H1|H1]; [lia|].
  rewrite class_counts_eq in E.
  destruct (unique_counts (map lab indices)) as [classes counts] eqn:Ec.
  assert (Hcl : classes = uniqueZ (map lab indices)) by (injection Ec as <- _; reflexivity).
  pose proof (unique_counts_sum lab indices) as Hsum. rewrite Ec in Hsum. cbn in Hsum.
  pose proof (unique_counts_pos (map lab indices)) as Hpos. rewrite Ec in Hpos. cbn in Hpos.
  assert (Hlc : length counts = length classes).
  { injection Ec as <- <-. apply map_length. }
  assert (Hlp : length (proportional ord counts n (lenZ indices)) = length classes)
    by (rewrite proportional_length; exact Hlc).
  destruct (holdout_loop R s lab indices classes _) as [[k h] s1] eqn:El.
  injection E as <- <- <-.
  assert (Hsz : class_size lab c (sortZ h) = lenZ (of_class lab h c)).
  { unfold class_size, of_class. apply lenZ_perm, Permutation_filter, sortZ_perm. }
  rewrite Hsz. change (class_size lab c indices) with (lenZ (of_class lab indices c)).
  destruct (in_dec Z.eq_dec c classes) as [Hin|Hni].
  - destruct (In_nth _ _ 0 Hin) as (j & Hj & <-).
    assert (Hndc : NoDup classes) by (rewrite Hcl; apply uniqueZ_NoDup).
    rewrite (holdout_loop_class _ _ _ _ _ _ _ _ _ j Hndc Hlp El Hj).
    rewrite <- Hsum.
    pose proof (proportional_bounds ord counts n j Hv Hpos ltac:(lia) ltac:(lia)) as Hb.
    pose proof (proportional_nth ord counts n (sumZ counts) j Hv ltac:(lia)) as Hfl. cbv zeta in Hfl.
    pose proof (proportional_zero_remainder ord counts n j Hv Hso ltac:(lia) ltac:(lia)) as Hz.
    pose proof (nth_counts lab indices j) as Hnc. rewrite Ec in Hnc. cbn [snd] in Hnc.
    rewrite <- Hcl in Hnc. specialize (Hnc Hj). rewrite <- Hnc.
    set (cj := nth j counts 0) in *. set (pj := nth j (proportional _ _ _ _) 0) in *.
    set (tot := sumZ counts) in *.
    replace (Z.min (Z.max pj 0) cj) with pj by lia.
    split; [split|]; [lia| |lia].
    destruct (Z.eq_dec ((cj * n) mod tot) 0) as [Hm|Hm].
    + rewrite (Hz Hm). rewrite Z.div_opp_l_z by lia. lia.
    + rewrite Z.div_opp_l_nz by lia. lia.
  - assert (Hnone : forall l, incl l indices -> of_class lab l c = []).
    { intros l Hl. apply of_class_nil. intros x Hx He. apply Hni. rewrite Hcl, <- He.
      apply classes_cover, Hl, Hx. }
    rewrite (Hnone indices) by apply incl_refl.
    rewrite (Hnone h).
    + assert (lenZ (@nil Z) = 0) as -> by reflexivity. rewrite Z.mul_0_l. cbn [Z.opp]. rewrite Zdiv_0_l. lia.
    + destruct (holdout_loop_spec _ _ _ _ _ _ _ _ _
              Hlp El) as (Hp & _ & _).
      intros x Hx. rewrite Hcl in Hp at 1. rewrite classes_group in Hp.
      rewrite <- Hp. apply in_or_app. right; exact Hx.
Qed.

(* the only ways a holdout split fails *)
Lemma round_mul_err f n e : round_mul f n = Err e -> f64_value (f64_mul f (f64_of_Z n)) = None.
Proof.
  unfold round_mul, py_round. destruct (f64_mul f (f64_of_Z n)); cbn; congruence.
Qed.

Lemma make_holdout_split_err R ord s n lab tf vf st e :
  argsort_valid ord ->
  make_holdout_split R ord s n lab tf vf st = Err e ->
  (n < 0 /\ e = ValueError) \/
  f64_value (f64_mul tf (f64_of_Z n)) = None \/
  exists m, 0 <= m <= n /\ f64_value (f64_mul vf (f64_of_Z m)) = None.
Proof.
  intros Hv E. unfold make_holdout_split in E.
  destruct (Z.ltb_spec n 0) as [|Hn]; [left; split; [assumption|congruence]|right].
  destruct (round_mul tf n) as [r|] eqn:Er; [cbn [bind] in E|left; eapply round_mul_err, Er].
  right.
  assert (Hla : lenZ (arange n) = n) by (unfold lenZ; rewrite arange_length; lia).
  destruct (holdout_part R ord st s lab (arange n) _) as [[tv te] s1] eqn:E1.
  destruct (holdout_part_spec _ _ _ _ _ _ _ _ _ _ Hv
             ltac:(rewrite Hla; apply clamp_range, Hn) (arange_ascending n) E1)
    as (Hp1 & Hl1 & _ & _).
  destruct (round_mul vf (lenZ tv)) as [rv|] eqn:Erv; cbn [bind] in E.
  - destruct (holdout_part R ord st s1 lab tv _) as [[? ?] ?]. discriminate.
  - exists (lenZ tv). split; [|eapply round_mul_err, Erv].
    apply lenZ_perm in Hp1. rewrite lenZ_app, Hla in Hp1. unfold lenZ in *. lia.
Qed.
