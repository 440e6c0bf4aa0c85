(* Lemmas about the k-fold splitters of SamplingModel.v. *)
From Coq Require Import ZifyBool ZifyNat.
From Verif Require Import Prelude ListFacts FloatModel FloatProofs SamplingSpec SamplingModel SamplingProofs.
Ltac Zify.zify_post_hook ::= Z.div_mod_to_equations.

Definition sum_nat (l : list nat) : nat := fold_right Nat.add 0%nat l.

Lemma cut_sizes_length {A} (l : list A) sizes : length (cut_sizes l sizes) = length sizes.
Proof. revert l; induction sizes as [|n r IH]; intros l; cbn; [reflexivity|]. f_equal; apply IH. Qed.

Lemma cut_sizes_concat {A} (l : list A) sizes :
  sum_nat sizes = length l -> concat (cut_sizes l sizes) = l.
Proof.
  revert l; induction sizes as [|n r IH]; intros l H; cbn in *.
  - destruct l; [reflexivity|discriminate].
  - rewrite IH; [apply firstn_skipn|]. rewrite skipn_length. fold (sum_nat r) in H. lia.
Qed.

Lemma cut_sizes_nth {A} (l : list A) sizes i :
  sum_nat sizes = length l -> (i < length sizes)%nat ->
  length (nth i (cut_sizes l sizes) []) = nth i sizes 0%nat.
Proof.
  revert l i; induction sizes as [|n r IH]; intros l i H Hi; cbn in *; [lia|].
  fold (sum_nat r) in H.
  destruct i as [|i]; cbn.
  - rewrite firstn_length. lia.
  - apply IH; [rewrite skipn_length; lia|lia].
Qed.

Lemma sum_nat_app a b : sum_nat (a ++ b) = (sum_nat a + sum_nat b)%nat.
Proof. induction a as [|x r IH]; cbn; [reflexivity|]. fold (sum_nat (r ++ b)) (sum_nat r). lia. Qed.
Lemma sum_nat_repeat x n : sum_nat (repeat x n) = (n * x)%nat.
Proof. induction n as [|n IH]; cbn; [reflexivity|]. fold (sum_nat (repeat x n)). lia. Qed.

Lemma array_split_sizes_sum len k : (0 < k)%nat ->
  sum_nat (repeat (S (len / k)) (len mod k) ++ repeat (len / k) (k - len mod k))%nat = len.
Proof.
  intros Hk. rewrite sum_nat_app, !sum_nat_repeat.
  pose proof (Nat.div_mod len k ltac:(lia)) as H. pose proof (Nat.mod_upper_bound len k ltac:(lia)) as Hb.
  set (q := (len / k)%nat) in *. set (r := (len mod k)%nat) in *. clearbody q r. nia.
Qed.

Lemma array_split_spec {A} (l : list A) k : (0 < k)%nat ->
  length (array_split l k) = k /\ concat (array_split l k) = l /\
  forall i, (i < k)%nat ->
    let q := (length l / k)%nat in
    length (nth i (array_split l k) []) = q \/ length (nth i (array_split l k) []) = S q.
Proof.
  intros Hk. unfold array_split.
  pose proof (Nat.mod_upper_bound (length l) k ltac:(lia)) as Hb.
  assert (Hlen : length (repeat (S (length l / k)) (length l mod k)
                          ++ repeat (length l / k) (k - length l mod k))%nat = k).
  { rewrite app_length, !repeat_length. lia. }
  split; [rewrite cut_sizes_length; exact Hlen|]. split.
  - apply cut_sizes_concat, array_split_sizes_sum, Hk.
  - intros i Hi. cbv zeta. rewrite cut_sizes_nth by (rewrite ?Hlen; auto using array_split_sizes_sum).
    destruct (Nat.ltb_spec i (length l mod k)%nat) as [Hlt|Hge].
    + right. rewrite app_nth1 by (rewrite repeat_length; exact Hlt).
      apply (repeat_spec (length l mod k)%nat). apply nth_In. rewrite repeat_length; exact Hlt.
    + left. rewrite app_nth2 by (rewrite repeat_length; exact Hge).
      apply (repeat_spec (k - length l mod k)%nat). apply nth_In. rewrite !repeat_length. lia.
Qed.

Lemma append_chunks_length p c : length p = length c -> length (append_chunks p c) = length p.
Proof. intros H. unfold append_chunks. rewrite map_length, combine_length. lia. Qed.

Lemma append_chunks_nth p c i : length p = length c ->
  nth i (append_chunks p c) [] = nth i p [] ++ nth i c [].
Proof.
  revert c i; induction p as [|x r IH]; intros [|y t] i H; cbn in H; try lia.
  - destruct i; reflexivity.
  - destruct i as [|i]; cbn; [reflexivity|]. apply IH. lia.
Qed.

Lemma append_chunks_concat p c : length p = length c ->
  Permutation (concat (append_chunks p c)) (concat p ++ concat c).
Proof.
  revert c; induction p as [|x r IH]; intros [|y t] H; cbn in H; try lia; [constructor|].
  cbn. fold (append_chunks r t). rewrite IH by lia. perm_count.
Qed.

Lemma shuffle_or_id_perm R s (shuffle : bool) l p s1 :
  (if shuffle then permutation R s l else (l, s)) = (p, s1) -> Permutation p l.
Proof.
  destruct shuffle; intros E.
  - pose proof (permutation_ok R s l) as H. rewrite E in H. exact H.
  - injection E as <- <-. reflexivity.
Qed.

Lemma class_size_app lab c a b : class_size lab c (a ++ b) = class_size lab c a + class_size lab c b.
Proof. unfold class_size. rewrite filter_app, lenZ_app. reflexivity. Qed.
Lemma class_size_perm lab c a b : Permutation a b -> class_size lab c a = class_size lab c b.
Proof. intros H. unfold class_size. apply lenZ_perm, Permutation_filter, H. Qed.

Lemma fold_parts_loop_spec R s lab indices k shuffle classes parts parts' s' :
  (0 < k)%nat -> length parts = k ->
  fold_parts_loop R s lab indices k shuffle classes parts = (parts', s') ->
  length parts' = k /\
  Permutation (concat parts') (concat parts ++ concat (map (of_class lab indices) classes)).
Proof.
  intros Hk. revert s parts; induction classes as [|c cr IH]; intros s parts Hl E; cbn in E.
  - injection E as <- <-. cbn. rewrite app_nil_r. split; [exact Hl|reflexivity].
  - destruct (if shuffle then _ else _) as [p s1] eqn:Ep.
    apply shuffle_or_id_perm in Ep.
    destruct (array_split_spec p k Hk) as (H1 & H2 & _).
    assert (Hlc : length parts = length (array_split p k)) by lia.
    assert (Hl' : length (append_chunks parts (array_split p k)) = k)
      by (rewrite append_chunks_length; lia).
    destruct (IH s1 _ Hl' E) as (H3 & H4).
    split; [exact H3|]. rewrite H4, append_chunks_concat by exact Hlc.
    rewrite H2, Ep. cbn [map concat]. rewrite app_assoc. reflexivity.
Qed.

(* per class: folds differ by at most one *)
Lemma fold_parts_loop_other R s lab indices k shuffle classes parts parts' s' c i :
  (0 < k)%nat -> length parts = k -> ~ In c classes ->
  fold_parts_loop R s lab indices k shuffle classes parts = (parts', s') ->
  class_size lab c (nth i parts' []) = class_size lab c (nth i parts []).
Proof.
  intros Hk. revert s parts; induction classes as [|a cr IH]; intros s parts Hl Hni E; cbn in E.
  - injection E as <- <-. reflexivity.
  - destruct (if shuffle then _ else _) as [p s1] eqn:Ep.
    apply shuffle_or_id_perm in Ep.
    destruct (array_split_spec p k Hk) as (H1 & H2 & _).
    assert (Hlc : length parts = length (array_split p k)) by lia.
    assert (Hl' : length (append_chunks parts (array_split p k)) = k)
      by (rewrite append_chunks_length; lia).
    rewrite (IH s1 _ Hl' ltac:(cbn in Hni; tauto) E).
    rewrite append_chunks_nth by exact Hlc. rewrite class_size_app.
    assert (of_class lab (nth i (array_split p k) []) c = []) as Hz.
    { apply of_class_nil. intros x Hx He. apply Hni. left.
      assert (In x p) as Hp.
      { rewrite <- H2. apply in_concat. destruct (nth_In_or_default (array_split p k) i []) as [Hin|Hd].
        - eexists; split; [exact Hin|exact Hx]. - rewrite Hd in Hx. contradiction. }
      rewrite Ep in Hp. unfold of_class in Hp. apply filter_In in Hp. lia. }
    unfold class_size at 2. unfold of_class in Hz. rewrite Hz. unfold lenZ; cbn; lia.
Qed.

Lemma fold_parts_loop_balance R s lab indices k shuffle classes parts parts' s' c i :
  (0 < k)%nat -> length parts = k -> NoDup classes -> In c classes -> (i < k)%nat ->
  fold_parts_loop R s lab indices k shuffle classes parts = (parts', s') ->
  let q := class_size lab c indices / Z.of_nat k in
  class_size lab c (nth i parts []) + q <= class_size lab c (nth i parts' [])
    <= class_size lab c (nth i parts []) + q + 1.
Proof.
  intros Hk. cbv zeta. revert s parts; induction classes as [|a cr IH];
    intros s parts Hl Hnd Hin Hi E; cbn in E; [contradiction|].
  destruct (if shuffle then _ else _) as [p s1] eqn:Ep.
  apply shuffle_or_id_perm in Ep.
  destruct (array_split_spec p k Hk) as (H1 & H2 & H3).
  assert (Hlc : length parts = length (array_split p k)) by lia.
  assert (Hl' : length (append_chunks parts (array_split p k)) = k)
    by (rewrite append_chunks_length; lia).
  inversion Hnd as [|? ? Hna Hnd']; subst a cr.
  destruct (Z.eq_dec c x) as [->|Hne].
  - rewrite (fold_parts_loop_other _ _ _ _ _ _ _ _ _ _ x i Hk Hl' Hna E).
    rewrite append_chunks_nth by exact Hlc. rewrite class_size_app.
    assert (of_class lab (nth i (array_split p k) []) x = nth i (array_split p k) []) as Hz.
    { apply of_class_all. intros z Hz.
      assert (In z p) as Hp.
      { rewrite <- H2. apply in_concat. destruct (nth_In_or_default (array_split p k) i []) as [Hin'|Hd].
        - eexists; split; [exact Hin'|exact Hz]. - rewrite Hd in Hz. contradiction. }
      rewrite Ep in Hp. unfold of_class in Hp. apply filter_In in Hp. lia. }
    unfold of_class in Hz.
    assert (class_size lab x (nth i (array_split p k) []) = lenZ (nth i (array_split p k) [])) as ->.
    { unfold class_size. rewrite Hz. reflexivity. }
    specialize (H3 i Hi). cbv zeta in H3.
    assert (class_size lab x indices / Z.of_nat k = Z.of_nat (length p / k)) as ->.
    { rewrite Nat2Z.inj_div. f_equal. apply lenZ_perm in Ep. unfold lenZ in Ep. rewrite Ep.
      reflexivity. }
    unfold lenZ. lia.
  - destruct Hin as [He|Hin]; [congruence|].
    assert (class_size lab c (nth i (append_chunks parts (array_split p k)) [])
            = class_size lab c (nth i parts [])) as Heq.
    { rewrite append_chunks_nth by exact Hlc. rewrite class_size_app.
      assert (of_class lab (nth i (array_split p k) []) c = []) as Hz.
      { apply of_class_nil. intros z Hz He. apply Hne.
        assert (In z p) as Hp.
        { rewrite <- H2. apply in_concat. destruct (nth_In_or_default (array_split p k) i []) as [Hin'|Hd].
          - eexists; split; [exact Hin'|exact Hz]. - rewrite Hd in Hz. contradiction. }
        rewrite Ep in Hp. unfold of_class in Hp. apply filter_In in Hp. lia. }
      unfold class_size at 2. unfold of_class in Hz. rewrite Hz. unfold lenZ; cbn; lia. }
    specialize (IH s1 _ Hl' Hnd' Hin Hi E). lia.
Qed.

Lemma shuffle_folds_spec R s shuffle parts parts' s' :
  shuffle_folds R s shuffle parts = (parts', s') -> Forall2 (@Permutation Z) parts' parts.
Proof.
  revert s parts' s'; induction parts as [|p r IH]; intros s parts' s' E; cbn in E.
  - injection E as <- <-. constructor.
  - destruct (if shuffle then _ else _) as [p' s1] eqn:Ep. apply shuffle_or_id_perm in Ep.
    destruct (shuffle_folds R s1 shuffle r) as [r' s2] eqn:Er. injection E as <- <-.
    constructor; [exact Ep|]. eapply IH, Er.
Qed.

Definition balanced_sizes (f : nat -> Z) (k : nat) : Prop :=
  forall i j, (i < k)%nat -> (j < k)%nat -> f i <= f j + 1.

Lemma nth_repeat_nil {A} k i : nth i (repeat (@nil A) k) [] = [].
Proof. revert i; induction k as [|k IH]; intros [|i]; cbn; auto. Qed.

Lemma kfold_folds_spec R s lab indices k st sh folds s' :
  (0 < k)%nat ->
  kfold_folds R s lab indices k st sh = (folds, s') ->
  length folds = k /\ Permutation (concat folds) indices /\
  (if st then forall c, balanced_sizes (fun i => class_size lab c (nth i folds [])) k
   else balanced_sizes (fun i => lenZ (nth i folds [])) k).
Proof.
  intros Hk E. unfold kfold_folds in E. destruct st.
  - unfold stratified_kfold in E.
    destruct (fold_parts_loop R s lab indices k sh (uniqueZ (map lab indices)) (repeat [] k))
      as [parts s1] eqn:Ep.
    destruct (fold_parts_loop_spec _ _ _ _ _ _ _ _ _ _ Hk (repeat_length _ _) Ep) as (Hl & Hp).
    assert (Hcr : concat (repeat (@nil Z) k) = []) by (clear; induction k; cbn; auto).
    rewrite Hcr in Hp. cbn [app] in Hp. rewrite classes_group in Hp.
    assert (Hbal : forall c, balanced_sizes (fun i => class_size lab c (nth i parts [])) k).
    { intros c i j Hi Hj.
      destruct (in_dec Z.eq_dec c (uniqueZ (map lab indices))) as [Hin|Hni].
      - pose proof (fold_parts_loop_balance _ _ _ _ _ _ _ _ _ _ c i Hk (repeat_length _ _)
                      (uniqueZ_NoDup _) Hin Hi Ep) as Hbi.
        pose proof (fold_parts_loop_balance _ _ _ _ _ _ _ _ _ _ c j Hk (repeat_length _ _)
                      (uniqueZ_NoDup _) Hin Hj Ep) as Hbj.
        cbv zeta in *. rewrite nth_repeat_nil in *. lia.
      - rewrite (fold_parts_loop_other _ _ _ _ _ _ _ _ _ _ c i Hk (repeat_length _ _) Hni Ep).
        rewrite (fold_parts_loop_other _ _ _ _ _ _ _ _ _ _ c j Hk (repeat_length _ _) Hni Ep).
        rewrite !nth_repeat_nil. lia. }
    assert (Hfin : Forall2 (@Permutation Z) folds parts).
    { destruct (uniqueZ (map lab indices)).
      - injection E as <- <-. clear. induction parts; constructor; auto.
      - eapply shuffle_folds_spec, E. }
    split; [rewrite (Forall2_length _ _ _ Hfin); exact Hl|]. split.
    + rewrite (concat_perm _ _ Hfin). exact Hp.
    + intros c i j Hi Hj. specialize (Hbal c i j Hi Hj). cbn beta in Hbal.
      rewrite (class_size_perm lab c _ _ (Forall2_nth_inv _ _ _ [] [] i Hfin
                 ltac:(rewrite (Forall2_length _ _ _ Hfin); lia))).
      rewrite (class_size_perm lab c _ _ (Forall2_nth_inv _ _ _ [] [] j Hfin
                 ltac:(rewrite (Forall2_length _ _ _ Hfin); lia))). exact Hbal.
  - unfold plain_kfold in E. destruct (if sh then _ else _) as [p s1] eqn:Ep.
    apply shuffle_or_id_perm in Ep. injection E as <- <-.
    destruct (array_split_spec p k Hk) as (H1 & H2 & H3).
    split; [exact H1|]. split; [rewrite H2; exact Ep|].
    intros i j Hi Hj. pose proof (H3 i Hi). pose proof (H3 j Hj). cbv zeta in *. unfold lenZ. lia.
Qed.

Lemma drop_nth_concat {A} i (l : list (list A)) : (i < length l)%nat ->
  Permutation (concat (drop_nth i l) ++ nth i l []) (concat l).
Proof.
  intros Hi. unfold drop_nth.
  rewrite <- (firstn_skipn i l) at 4. rewrite !concat_app.
  assert (skipn i l = nth i l [] :: skipn (S i) l) as ->.
  { revert i Hi; induction l as [|x r IH]; intros [|i] Hi; cbn in *; try lia; [reflexivity|].
    apply IH. lia. }
  cbn [concat]. rewrite <- app_assoc. apply Permutation_app_head, Permutation_app_comm.
Qed.

(* One fold.  [all] collects what the other folds of the same call share. *)
Lemma make_kfold_split_spec R ord s n lab k fold st sh vf sp folds s' :
  argsort_valid ord ->
  kfold_folds R s lab (arange n) (Z.to_nat k) st sh = (folds, s') ->
  make_kfold_split R ord s n lab k fold st sh vf = Ok sp ->
  1 < k /\ 0 <= fold < k /\
  test sp = sortZ (nth (Z.to_nat fold) folds []) /\
  is_partition (fun x => 0 <= x < n) [train sp; val sp; test sp] /\
  (if f64_ltb f64_zero vf then share_size vf (Z.max 0 n - lenZ (test sp)) (lenZ (val sp))
   else val sp = []).
Proof.
  intros Hv Ef E. unfold make_kfold_split in E.
  destruct (Z.leb_spec k 1) as [|Hk]; [discriminate|].
  destruct ((fold <? 0) || (k <=? fold)) eqn:Hfo; [discriminate|].
  rewrite Ef in E.
  assert (Hk0 : (0 < Z.to_nat k)%nat) by lia.
  destruct (kfold_folds_spec _ _ _ _ _ _ _ _ _ Hk0 Ef) as (Hl & Hp & _).
  set (te := nth (Z.to_nat fold) folds []) in *.
  set (rest := concat (drop_nth (Z.to_nat fold) folds)) in *.
  assert (Hpt : Permutation (rest ++ te) (arange n)).
  { rewrite <- Hp. apply drop_nth_concat. lia. }
  assert (Hnd : NoDup (rest ++ te)).
  { eapply Permutation_NoDup; [symmetry; exact Hpt|apply arange_NoDup]. }
  apply NoDup_app_iff in Hnd. destruct Hnd as (Hndr & Hndt & _).
  assert (Hlen : lenZ (sortZ rest) = Z.max 0 n - lenZ (sortZ te)).
  { apply lenZ_perm in Hpt. rewrite lenZ_app in Hpt. unfold lenZ in *.
    rewrite !sortZ_length, arange_length in *. lia. }
  split; [lia|]. split; [lia|].
  destruct (f64_ltb f64_zero vf) eqn:Hvf.
  - destruct (round_mul vf (lenZ (sortZ rest))) as [rv|] eqn:Erv; cbn [bind] in E; [|discriminate].
    destruct (holdout_part R ord st s' lab (sortZ rest) _) as [[tr va] s2] eqn:E2.
    assert (Hr0 : 0 <= lenZ (sortZ rest)) by (unfold lenZ; lia).
    destruct (holdout_part_spec _ _ _ _ _ _ _ _ _ _ Hv (clamp_range _ rv Hr0)
                (sortZ_ascending _ Hndr) E2) as (Hp2 & Hl2 & Ha3 & Ha4).
    injection E as <-. cbn [train val test]. split; [reflexivity|]. split.
    + apply (partition_of_perm _ (arange n)); [apply arange_NoDup|intros x; symmetry; apply arange_In| |].
      * cbn [concat]. rewrite app_nil_r, app_assoc, Hp2, !sortZ_perm. exact Hpt.
      * intros p [<-|[<-|[<-|[]]]]; try assumption. apply sortZ_ascending, Hndt.
    + exists rv. rewrite <- Hlen. split; [apply round_mul_spec, Erv|exact Hl2].
  - injection E as <-. cbn [train val test]. split; [reflexivity|]. split; [|reflexivity].
    apply (partition_of_perm _ (arange n)); [apply arange_NoDup|intros x; symmetry; apply arange_In| |].
    + cbn [concat app]. rewrite app_nil_r, !sortZ_perm. exact Hpt.
    + intros p [<-|[<-|[<-|[]]]]; [apply sortZ_ascending, Hndr|constructor|apply sortZ_ascending, Hndt].
Qed.

Lemma make_kfold_split_rejects R ord s n lab k fold st sh vf :
  k <= 1 \/ fold < 0 \/ k <= fold ->
  make_kfold_split R ord s n lab k fold st sh vf = Err ValueError.
Proof.
  intros H. unfold make_kfold_split. destruct (Z.leb_spec k 1); [reflexivity|].
  replace ((fold <? 0) || (k <=? fold)) with true by lia. reflexivity.
Qed.

(* All folds of one configuration. *)
Lemma make_kfold_all R ord s n lab k st sh vf sps :
  argsort_valid ord -> 1 < k ->
  Forall2 (fun fold sp => make_kfold_split R ord s n lab k fold st sh vf = Ok sp) (arange k) sps ->
  is_partition (fun x => 0 <= x < n) (map test sps) /\
  (forall a b, In a sps -> In b sps ->
     if st then forall c, class_size lab c (test a) <= class_size lab c (test b) + 1
     else lenZ (test a) <= lenZ (test b) + 1).
Proof.
  intros Hv Hk HF.
  destruct (kfold_folds R s lab (arange n) (Z.to_nat k) st sh) as [folds s'] eqn:Ef.
  assert (Hk0 : (0 < Z.to_nat k)%nat) by lia.
  destruct (kfold_folds_spec _ _ _ _ _ _ _ _ _ Hk0 Ef) as (Hl & Hp & Hb).
  assert (Hls : length sps = Z.to_nat k).
  { rewrite <- (Forall2_length _ _ _ HF). apply arange_length. }
  assert (Hi : forall i, (i < Z.to_nat k)%nat -> forall d,
            test (nth i sps d) = sortZ (nth i folds [])).
  { intros i Hi d.
    pose proof (Forall2_nth_inv _ _ _ 0 d i HF ltac:(rewrite arange_length; exact Hi)) as H.
    cbn beta in H.
    destruct (make_kfold_split_spec _ _ _ _ _ _ _ _ _ _ _ _ _ Hv Ef H) as (_ & _ & Ht & _).
    rewrite Ht. f_equal. f_equal. unfold arange.
    rewrite (map_nth Z.of_nat (seq 0 (Z.to_nat k)) 0%nat).
    rewrite seq_nth by exact Hi. lia. }
  assert (Hmap : map test sps = map sortZ folds).
  { apply (nth_ext _ _ [] []); [rewrite !map_length; lia|].
    intros i Hlt. rewrite map_length, Hls in Hlt.
    set (d := {| train := []; val := []; test := [] |}).
    change [] with (test d) at 1. rewrite map_nth.
    change (@nil Z) with (sortZ []) at 1. rewrite map_nth. apply Hi, Hlt. }
  split.
  - rewrite Hmap. apply (partition_of_perm _ (arange n));
      [apply arange_NoDup|intros x; symmetry; apply arange_In| |].
    + rewrite <- Hp. apply concat_perm. clear. induction folds; constructor; auto using sortZ_perm.
    + intros p Hin. apply in_map_iff in Hin. destruct Hin as (f & <- & Hf).
      apply sortZ_ascending.
      assert (NoDup (concat folds)) as Hndc
        by (eapply Permutation_NoDup; [symmetry; exact Hp|apply arange_NoDup]).
      clear -Hndc Hf. induction folds as [|a r IH]; [contradiction|].
      cbn in Hndc. apply NoDup_app_iff in Hndc. destruct Hndc as (Ha & Hr & _).
      destruct Hf as [->|Hf]; auto.
  - intros a b Ha Hbn.
    destruct (In_nth _ _ a Ha) as (i & Hil & Hia). destruct (In_nth _ _ a Hbn) as (j & Hjl & Hjb).
    rewrite Hls in *.
    assert (Hta : test a = sortZ (nth i folds [])) by (rewrite <- Hia; apply Hi; exact Hil).
    assert (Htb : test b = sortZ (nth j folds [])) by (rewrite <- Hjb; apply Hi; exact Hjl).
    rewrite Hta, Htb. destruct st.
    + intros c. specialize (Hb c i j Hil Hjl). cbn beta in Hb.
      rewrite !(class_size_perm lab c _ _ (sortZ_perm _)). exact Hb.
    + specialize (Hb i j Hil Hjl). cbn beta in Hb. unfold lenZ in *. rewrite !sortZ_length. exact Hb.
Qed.

Lemma make_kfold_one R ord s n lab k fold st sh vf sp :
  argsort_valid ord ->
  make_kfold_split R ord s n lab k fold st sh vf = Ok sp ->
  is_partition (fun x => 0 <= x < n) [train sp; val sp; test sp] /\
  (if f64_ltb f64_zero vf then share_size vf (Z.max 0 n - lenZ (test sp)) (lenZ (val sp))
   else val sp = []).
Proof.
  intros Hv E.
  destruct (kfold_folds R s lab (arange n) (Z.to_nat k) st sh) as [folds s'] eqn:Ef.
  destruct (make_kfold_split_spec _ _ _ _ _ _ _ _ _ _ _ _ _ Hv Ef E) as (_ & _ & _ & H1 & H2).
  split; assumption.
Qed.
