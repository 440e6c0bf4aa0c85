(* Lemmas about select_labeled and apply_imbalance of SamplingModel.v. *)
From Coq Require Import ZifyBool ZifyNat SpecFloat.
From Verif Require Import Prelude ListFacts FloatModel FloatProofs SamplingSpec SamplingModel
  SamplingProofs KFoldProofs LabelingSpec.
Ltac Zify.zify_post_hook ::= Z.div_mod_to_equations.

(* what the removal loop cannot go below *)
Definition floor_of (mn c : Z) : Z := if mn <=? c then Z.max 0 mn else 0.

Lemma floor_of_nonneg mn c : 0 <= floor_of mn c.
Proof. unfold floor_of. destruct (mn <=? c); lia. Qed.

Lemma update_sub_in pc j : (j < length pc)%nat ->
  sumZ (update pc j (fun v => v - 1)) = sumZ pc - 1.
Proof. intros H. rewrite update_sum by exact H. lia. Qed.
Lemma update_add_in pc j : (j < length pc)%nat ->
  sumZ (update pc j (fun v => v + 1)) = sumZ pc + 1.
Proof. intros H. rewrite update_sum by exact H. lia. Qed.

Lemma sumZ_map_eq (f : Z -> Z) counts pc :
  length pc = length counts ->
  (forall j, (j < length counts)%nat -> nth j pc 0 = f (nth j counts 0)) ->
  sumZ pc = sumZ (map f counts).
Proof.
  revert pc; induction counts as [|c r IH]; intros [|p t] Hl H; cbn in Hl; try lia; [reflexivity|].
  cbn [map sumZ]. rewrite (IH t ltac:(lia)).
  - pose proof (H 0%nat ltac:(cbn; lia)) as H0. cbn in H0. lia.
  - intros j Hj. apply (H (S j)). cbn; lia.
Qed.

Lemma sumZ_map_le (f : Z -> Z) counts pc :
  length pc = length counts ->
  (forall j, (j < length counts)%nat -> f (nth j counts 0) <= nth j pc 0) ->
  sumZ (map f counts) <= sumZ pc.
Proof.
  revert pc; induction counts as [|c r IH]; intros [|p t] Hl H; cbn in Hl; try lia; [reflexivity|].
  cbn [map sumZ]. pose proof (H 0%nat ltac:(cbn; lia)) as H0. cbn in H0.
  assert (sumZ (map f r) <= sumZ t).
  { apply IH; [lia|]. intros j Hj. apply (H (S j)). cbn; lia. }
  lia.
Qed.

Lemma sumZ_map_ge (f : Z -> Z) counts pc :
  length pc = length counts ->
  (forall j, (j < length counts)%nat -> nth j pc 0 <= f (nth j counts 0)) ->
  sumZ pc <= sumZ (map f counts).
Proof.
  revert pc; induction counts as [|c r IH]; intros [|p t] Hl H; cbn in Hl; try lia; [reflexivity|].
  cbn [map sumZ]. pose proof (H 0%nat ltac:(cbn; lia)) as H0. cbn in H0.
  assert (sumZ t <= sumZ (map f r)).
  { apply IH; [lia|]. intros j Hj. apply (H (S j)). cbn; lia. }
  lia.
Qed.

Lemma remove_loop_spec mn target counts fuel order pc total :
  length pc = length counts ->
  Forall (fun j => (j < length counts)%nat) order ->
  (forall j, (j < length counts)%nat ->
     floor_of mn (nth j counts 0) <= nth j pc 0 <= nth j counts 0) ->
  (forall j, (j < length counts)%nat -> ~ In j order -> nth j pc 0 = floor_of mn (nth j counts 0)) ->
  total = sumZ pc -> target <= total ->
  (Z.to_nat (total - target) + length order < fuel)%nat ->
  exists pc', remove_loop fuel mn target counts order pc total = Some pc' /\
    length pc' = length counts /\
    (forall j, (j < length counts)%nat ->
       floor_of mn (nth j counts 0) <= nth j pc' 0 <= nth j pc 0) /\
    sumZ pc' = Z.max target (sumZ (map (floor_of mn) counts)).
Proof.
  revert order pc total; induction fuel as [|f IH]; intros order pc total Hl Ho Hb Hd Ht Hge Hf;
    [lia|].
  cbn [remove_loop].
  assert (Hlow : sumZ (map (floor_of mn) counts) <= sumZ pc).
  { apply sumZ_map_le; [exact Hl|]. intros j Hj. apply Hb, Hj. }
  destruct (Z.leb_spec total target) as [Hle|Hgt].
  { exists pc. split; [reflexivity|]. split; [exact Hl|]. split; [|lia].
    intros j Hj. specialize (Hb j Hj). lia. }
  destruct order as [|j rest].
  { exists pc. split; [reflexivity|]. split; [exact Hl|]. split.
    - intros i Hi. specialize (Hb i Hi). lia.
    - assert (sumZ pc = sumZ (map (floor_of mn) counts)) as Hs.
      { apply sumZ_map_eq; [exact Hl|]. intros i Hi. apply Hd; [exact Hi|intros []]. }
      lia. }
  inversion Ho as [|? ? Hj Ho']; subst.
  destruct ((0 <? nth j pc 0) && ((nth j counts 0 <? mn) || (mn <? nth j pc 0))) eqn:Hc.
  - destruct (IH (j :: rest) (update pc j (fun v => v - 1)) (sumZ pc - 1)) as (pc' & E & H1 & H2 & H3).
    + rewrite update_length; exact Hl.
    + exact Ho.
    + intros i Hi. rewrite update_nth by lia. specialize (Hb i Hi).
      destruct (Nat.eqb_spec i j) as [->|]; [|lia]. unfold floor_of in *.
      destruct (mn <=? nth j counts 0) eqn:?; lia.
    + intros i Hi Hni. rewrite update_nth by lia.
      destruct (Nat.eqb_spec i j) as [->|]; [elim Hni; left; reflexivity|apply Hd; auto].
    + rewrite update_sub_in by lia. reflexivity.
    + lia.
    + cbn [length] in *. lia.
    + exists pc'. split; [exact E|]. split; [exact H1|]. split; [|exact H3].
      intros i Hi. specialize (H2 i Hi). rewrite update_nth in H2 by lia.
      destruct (Nat.eqb i j); lia.
  - apply IH; auto; [|cbn [length] in *; lia].
    intros i Hi Hni. destruct (Nat.eq_dec i j) as [->|Hne].
    + specialize (Hb j Hi). unfold floor_of in *. destruct (mn <=? nth j counts 0) eqn:?; lia.
    + apply Hd; [exact Hi|]. intros [->|]; auto.
Qed.

Lemma add_loop_spec target counts fuel order pc total :
  length pc = length counts ->
  Forall (fun j => (j < length counts)%nat) order ->
  (forall j, (j < length counts)%nat -> nth j pc 0 <= nth j counts 0) ->
  (forall j, (j < length counts)%nat -> ~ In j order -> nth j pc 0 = nth j counts 0) ->
  total = sumZ pc -> total <= target <= sumZ counts ->
  (Z.to_nat (target - total) + length order < fuel)%nat ->
  exists pc', add_loop fuel target counts order pc total = Some pc' /\
    length pc' = length counts /\
    (forall j, (j < length counts)%nat -> nth j pc 0 <= nth j pc' 0 <= nth j counts 0) /\
    sumZ pc' = target.
Proof.
  revert order pc total; induction fuel as [|f IH]; intros order pc total Hl Ho Hb Hd Ht Hge Hf;
    [lia|].
  cbn [add_loop].
  destruct (Z.leb_spec target total) as [Hle|Hgt].
  { exists pc. split; [reflexivity|]. split; [exact Hl|]. split; [|lia].
    intros j Hj. specialize (Hb j Hj). lia. }
  destruct order as [|j rest].
  { exfalso. rewrite (sumZ_map_eq (fun c => c) counts pc Hl) in Ht.
    - rewrite map_id in Ht. lia.
    - intros i Hi. apply Hd; [exact Hi|intros []]. }
  inversion Ho as [|? ? Hj Ho']; subst.
  destruct (Z.ltb_spec (nth j pc 0) (nth j counts 0)) as [Hc|Hc].
  - destruct (IH (j :: rest) (update pc j (fun v => v + 1)) (sumZ pc + 1)) as (pc' & E & H1 & H2 & H3).
    + rewrite update_length; exact Hl.
    + exact Ho.
    + intros i Hi. rewrite update_nth by lia. specialize (Hb i Hi).
      destruct (Nat.eqb_spec i j) as [->|]; lia.
    + intros i Hi Hni. rewrite update_nth by lia.
      destruct (Nat.eqb_spec i j) as [->|]; [elim Hni; left; reflexivity|apply Hd; auto].
    + rewrite update_add_in by lia. reflexivity.
    + lia.
    + cbn [length] in *. lia.
    + exists pc'. split; [exact E|]. split; [exact H1|]. split; [|exact H3].
      intros i Hi. specialize (H2 i Hi). rewrite update_nth in H2 by lia.
      destruct (Nat.eqb i j); lia.
  - apply IH; auto; [|cbn [length] in *; lia].
    intros i Hi Hni. destruct (Nat.eq_dec i j) as [->|Hne].
    + specialize (Hb j Hi). lia.
    + apply Hd; [exact Hi|]. intros [->|]; auto.
Qed.

Lemma argsort_full ord keys : argsort_valid ord ->
  Forall (fun i => (i < length keys)%nat) (ord keys) /\ length (ord keys) = length keys /\
  (forall j, (j < length keys)%nat -> In j (ord keys)).
Proof.
  intros Hv. specialize (Hv keys). split; [|split].
  - apply Forall_forall. intros i Hi. rewrite Hv in Hi. apply in_seq in Hi. lia.
  - rewrite (Permutation_length Hv), seq_length. reflexivity.
  - intros j Hj. rewrite Hv. apply in_seq. lia.
Qed.

Lemma adjust_spec ord mn target counts pc :
  argsort_valid ord -> length pc = length counts -> target <= sumZ counts ->
  (forall j, (j < length counts)%nat ->
     floor_of mn (nth j counts 0) <= nth j pc 0 <= nth j counts 0) ->
  exists pc', adjust ord mn target counts pc = Some pc' /\
    length pc' = length counts /\
    (forall j, (j < length counts)%nat ->
       floor_of mn (nth j counts 0) <= nth j pc' 0 <= nth j counts 0) /\
    sumZ pc' = Z.max target (sumZ (map (floor_of mn) counts)) /\
    (sumZ pc <= target -> forall j, (j < length counts)%nat -> nth j pc 0 <= nth j pc' 0).
Proof.
  intros Hv Hl Ht Hb. unfold adjust.
  assert (Hlow : sumZ (map (floor_of mn) counts) <= sumZ pc).
  { apply sumZ_map_le; [exact Hl|]. intros j Hj. apply Hb, Hj. }
  destruct (Z.ltb_spec target (sumZ pc)) as [Hgt|Hle].
  - destruct (argsort_full ord (map Z.opp pc) Hv) as (Ho & Hol & Hoi).
    rewrite map_length, Hl in *.
    destruct (remove_loop_spec mn target counts
                (Z.to_nat (Z.abs (sumZ pc - target)) + length counts + 1)
                (ord (map Z.opp pc)) pc (sumZ pc)) as (pc' & E & H1 & H2 & H3); auto; try lia.
    + intros j Hj Hni. elim Hni. apply Hoi, Hj.
    + exists pc'. split; [exact E|]. split; [exact H1|]. split; [|split; [exact H3|lia]].
      intros j Hj. specialize (H2 j Hj). specialize (Hb j Hj). lia.
  - destruct (Z.ltb_spec (sumZ pc) target) as [Hlt|Hge].
    + set (keys := map (fun p => - (snd p - fst p)) (combine pc counts)).
      destruct (argsort_full ord keys Hv) as (Ho & Hol & Hoi).
      assert (Hlk : length keys = length counts).
      { unfold keys. rewrite map_length, combine_length. lia. }
      rewrite Hlk in *.
      destruct (add_loop_spec target counts
                  (Z.to_nat (Z.abs (sumZ pc - target)) + length pc + 1)
                  (ord keys) pc (sumZ pc)) as (pc' & E & H1 & H2 & H3); auto; try lia.
      * intros j Hj. apply Hb, Hj.
      * intros j Hj Hni. elim Hni. apply Hoi, Hj.
      * exists pc'. split; [exact E|]. split; [exact H1|]. split; [|split; [lia|]].
        -- intros j Hj. specialize (H2 j Hj). specialize (Hb j Hj). lia.
        -- intros _ j Hj. apply H2, Hj.
    + exists pc. split; [reflexivity|]. split; [exact Hl|]. split; [exact Hb|]. split; [lia|].
      intros _ j Hj. lia.
Qed.

(* the first allocation is non-negative *)
Lemma initial_alloc_length ord m st counts target n :
  length (initial_alloc ord m st counts target n) = length counts.
Proof.
  unfold initial_alloc. destruct m; try apply map_length;
    (destruct st; [apply proportional_length|]; destruct (0 <? target);
     [rewrite bump_all_length; apply map_length|apply proportional_length]).
Qed.

Lemma initial_alloc_nonneg ord m st counts target j :
  argsort_valid ord -> Forall (fun c => 0 < c) counts -> 0 <= target ->
  match m with MPerClass v => 0 <= v | _ => True end ->
  (j < length counts)%nat ->
  0 <= nth j (initial_alloc ord m st counts target (sumZ counts)) 0.
Proof.
  intros Hv Hpos Ht Hm Hj.
  assert (Hprop : 0 <= nth j (proportional ord counts target (sumZ counts)) 0).
  { pose proof (proportional_nth ord counts target (sumZ counts) j Hv Hj) as Hb. cbv zeta in Hb.
    rewrite Forall_forall in Hpos. pose proof (Hpos (nth j counts 0) (nth_In _ _ Hj)) as Hp.
    assert (0 < sumZ counts).
    { destruct counts as [|c r]; [cbn in Hj; lia|]. cbn.
      pose proof (Hpos c (or_introl eq_refl)).
      assert (0 <= sumZ r) by (apply sumZ_nonneg, Forall_forall; intros x Hx;
        pose proof (Hpos x (or_intror Hx)); lia). lia. }
    assert (0 <= nth j counts 0 * target / sumZ counts) by (apply Z.div_pos; nia). lia. }
  assert (Hbal : 0 < target -> 0 <= nth j
     (bump_all (map (fun _ : Z => target / lenZ counts) counts)
        (firstn (Z.to_nat (target mod lenZ counts)) (ord (map Z.opp counts)))) 0).
  { intros Ht'. destruct (argsort_positions ord (map Z.opp counts) (Z.to_nat (target mod lenZ counts)) Hv)
      as (Hf & Hnd & _). rewrite map_length in Hf.
    rewrite bump_all_nth; [|rewrite map_length; exact Hf|exact Hnd].
    rewrite (nth_map_Z (fun _ => target / lenZ counts)) by exact Hj.
    assert (0 <= target / lenZ counts).
    { unfold lenZ. apply Z.div_pos; lia. }
    destruct (in_dec _ _ _); lia. }
  unfold initial_alloc. destruct m as [f|v|v].
  - destruct st; [exact Hprop|]. destruct (Z.ltb_spec 0 target); auto.
  - destruct st; [exact Hprop|]. destruct (Z.ltb_spec 0 target); auto.
  - rewrite (nth_map_Z (fun _ => v)) by exact Hj. exact Hm.
Qed.

Lemma clip_alloc_length mn counts al : length al = length counts ->
  length (clip_alloc mn counts al) = length counts.
Proof. intros H. unfold clip_alloc. rewrite map_length, combine_length. lia. Qed.

Lemma clip_alloc_nth mn counts al j : length al = length counts -> (j < length counts)%nat ->
  nth j (clip_alloc mn counts al) 0 =
  Z.min (enforce_min mn (nth j al 0) (nth j counts 0)) (nth j counts 0).
Proof.
  intros Hl Hj. unfold clip_alloc.
  set (f := fun p : Z * Z => Z.min (enforce_min mn (fst p) (snd p)) (snd p)).
  rewrite (nth_indep _ 0 (f (0, 0))) by (rewrite map_length, combine_length; lia).
  rewrite (map_nth f). rewrite combine_nth by exact Hl. reflexivity.
Qed.

Lemma label_alloc_spec ord spec counts target :
  argsort_valid ord -> Forall (fun c => 0 < c) counts -> 0 <= target <= sumZ counts ->
  match l_mode spec with MPerClass v => 0 <= v | _ => True end ->
  let mn := l_min_per_class spec in
  exists pc, label_alloc ord spec counts target (sumZ counts) = Some pc /\
    length pc = length counts /\
    (forall j, (j < length counts)%nat ->
       floor_of mn (nth j counts 0) <= nth j pc 0 <= nth j counts 0) /\
    sumZ pc = Z.max target (sumZ (map (floor_of mn) counts)) /\
    (forall v, l_mode spec = MPerClass v -> mn <= v -> sumZ (map (fun c => Z.min v c) counts) <= target ->
       forall j, (j < length counts)%nat -> Z.min v (nth j counts 0) <= nth j pc 0).
Proof.
  intros Hv Hpos Ht Hm. cbv zeta. unfold label_alloc.
  set (al := initial_alloc ord (l_mode spec) (l_strategy spec) counts target (sumZ counts)).
  set (mn := l_min_per_class spec).
  assert (Hla : length al = length counts) by apply initial_alloc_length.
  destruct (adjust_spec ord mn target counts (clip_alloc mn counts al) Hv
              (clip_alloc_length _ _ _ Hla) ltac:(lia)) as (pc & E & H1 & H2 & H3 & H4).
  - intros j Hj. rewrite clip_alloc_nth by assumption.
    assert (0 <= nth j al 0) by (apply initial_alloc_nonneg; auto; lia).
    rewrite Forall_forall in Hpos. pose proof (Hpos _ (nth_In counts 0 Hj)).
    unfold floor_of, enforce_min. destruct (mn <=? nth j counts 0) eqn:?; lia.
  - exists pc. split; [exact E|]. split; [exact H1|]. split; [exact H2|]. split; [exact H3|].
    intros v Hmv Hmn Hsum j Hj.
    assert (Hal : forall i, (i < length counts)%nat -> nth i al 0 = v).
    { intros i Hi. unfold al. rewrite Hmv. cbn. apply (nth_map_Z (fun _ => v)), Hi. }
    assert (Hcl : forall i, (i < length counts)%nat ->
              nth i (clip_alloc mn counts al) 0 = Z.min v (nth i counts 0)).
    { intros i Hi. rewrite clip_alloc_nth, Hal by assumption. unfold enforce_min.
      destruct (mn <=? _); lia. }
    rewrite <- Hcl by exact Hj. apply H4; [|exact Hj].
    rewrite (sumZ_map_eq (fun c => Z.min v c) counts _ (clip_alloc_length _ _ _ Hla) Hcl).
    exact Hsum.
Qed.

(* ---------- choosing ---------- *)
Lemma choice_facts R s pop n : (n <= length pop)%nat -> NoDup pop ->
  let ch := fst (choice R s pop n) in length ch = n /\ NoDup ch /\ incl ch pop.
Proof.
  intros Hn Hnd. destruct (choice_ok R s pop n Hn) as (Hl & rest & Hp). cbv zeta.
  split; [exact Hl|]. split.
  - eapply Permutation_NoDup in Hnd; [|symmetry; exact Hp]. apply NoDup_app_iff in Hnd. tauto.
  - intros x Hx. rewrite <- Hp. apply in_or_app; auto.
Qed.

Lemma of_class_In lab l c x : In x (of_class lab l c) <-> In x l /\ lab x = c.
Proof. unfold of_class. rewrite filter_In, Z.eqb_eq. reflexivity. Qed.
Lemma of_class_NoDup lab l c : NoDup l -> NoDup (of_class lab l c).
Proof. apply NoDup_filter. Qed.

Lemma choose_loop_spec R s lab idx classes sel out s' :
  NoDup idx -> NoDup classes -> length sel = length classes ->
  choose_loop R s lab idx classes sel = Ok (out, s') ->
  NoDup out /\ incl out idx /\ (forall x, In x out -> In (lab x) classes) /\
  lenZ out = sumZ (map (Z.max 0) sel) /\
  (forall j, (j < length classes)%nat ->
     class_size lab (nth j classes 0) out = Z.max 0 (nth j sel 0) /\
     Z.max 0 (nth j sel 0) <= class_size lab (nth j classes 0) idx).
Proof.
  intros Hnd. revert s sel out s'; induction classes as [|c cr IH];
    intros s [|n nr] out s' Hndc Hl E; cbn in Hl; try lia; cbn in E.
  { injection E as <- <-. split; [constructor|]. split; [intros x []|]. split; [intros x []|].
    split; [reflexivity|]. cbn. lia. }
  inversion Hndc as [|? ? Hni Hndc']; subst.
  destruct (Z.leb_spec n 0) as [Hn|Hn].
  - destruct (IH s nr out s' Hndc' ltac:(lia) E) as (H1 & H2 & H3 & H4 & H5).
    split; [exact H1|]. split; [exact H2|]. split; [intros x Hx; right; apply H3, Hx|].
    split; [cbn [map sumZ]; rewrite H4, Z.max_l by lia; reflexivity|].
    intros [|j] Hj; cbn [nth].
    + assert (of_class lab out c = []) as Hz.
      { apply of_class_nil. intros x Hx He. apply Hni. rewrite <- He. apply H3, Hx. }
      unfold class_size. unfold of_class in Hz. rewrite Hz. unfold lenZ; cbn [length]. lia.
    + apply H5. cbn in Hj; lia.
  - destruct (Z.ltb_spec (lenZ (of_class lab idx c)) n) as [|Hle]; [discriminate|].
    pose proof (choice_facts R s (of_class lab idx c) (Z.to_nat n) ltac:(unfold lenZ in Hle; lia)
                  (of_class_NoDup _ _ _ Hnd)) as Hc. cbv zeta in Hc.
    destruct (choice R s (of_class lab idx c) (Z.to_nat n)) as [ch s1]. cbn [fst] in Hc.
    destruct Hc as (Hcl & Hcn & Hci).
    destruct (choose_loop R s1 lab idx cr nr) as [[out2 s2]|] eqn:Er; cbn in E; [|discriminate].
    injection E as <- <-.
    destruct (IH s1 nr out2 s2 Hndc' ltac:(lia) Er) as (H1 & H2 & H3 & H4 & H5).
    assert (Hcc : forall x, In x ch -> In x idx /\ lab x = c).
    { intros x Hx. apply of_class_In, Hci, Hx. }
    split; [|split; [|split; [|split]]].
    + apply NoDup_app_iff. split; [exact Hcn|]. split; [exact H1|].
      intros x Hx Hx2. apply Hni. destruct (Hcc x Hx) as (_ & <-). apply H3, Hx2.
    + intros x Hx. apply in_app_or in Hx. destruct Hx as [Hx|Hx]; [apply Hcc, Hx|apply H2, Hx].
    + intros x Hx. apply in_app_or in Hx. destruct Hx as [Hx|Hx].
      * left. symmetry. apply Hcc, Hx. * right. apply H3, Hx.
    + rewrite lenZ_app, H4. cbn [map sumZ]. unfold lenZ. lia.
    + intros [|j] Hj; cbn [nth]; rewrite class_size_app.
      * assert (of_class lab out2 c = []) as Hz.
        { apply of_class_nil. intros x Hx He. apply Hni. rewrite <- He. apply H3, Hx. }
        assert (of_class lab ch c = ch) as Ha.
        { apply of_class_all. intros x Hx. apply Hcc, Hx. }
        unfold class_size at 1 2. unfold of_class in Hz, Ha. rewrite Hz, Ha.
        change (class_size lab c idx) with (lenZ (of_class lab idx c)).
        unfold lenZ in *; cbn [length]. lia.
      * cbn in Hj. destruct (H5 j ltac:(lia)) as (H6 & H7). split; [|exact H7].
        assert (of_class lab ch (nth j cr 0) = []) as Hz.
        { apply of_class_nil. intros x Hx He. apply Hni.
          destruct (Hcc x Hx) as (_ & Hxc). rewrite <- Hxc, He. apply nth_In. lia. }
        unfold class_size at 1. unfold of_class in Hz. rewrite Hz, H6. unfold lenZ; cbn [length]. lia.
Qed.

Lemma choose_loop_ok R s lab idx classes sel :
  NoDup idx -> length sel = length classes ->
  (forall j, (j < length classes)%nat -> nth j sel 0 <= lenZ (of_class lab idx (nth j classes 0))) ->
  exists out, choose_loop R s lab idx classes sel = Ok out.
Proof.
  intros Hnd. revert s sel; induction classes as [|c cr IH]; intros s [|n nr] Hl H; cbn in Hl; try lia.
  { eexists; reflexivity. }
  cbn [choose_loop]. pose proof (H 0%nat ltac:(cbn; lia)) as H0. cbn in H0.
  assert (Hr : forall j, (j < length cr)%nat -> nth j nr 0 <= lenZ (of_class lab idx (nth j cr 0))).
  { intros j Hj. apply (H (S j)). cbn; lia. }
  destruct (Z.leb_spec n 0) as [|Hn]; [apply IH; auto; lia|].
  destruct (Z.ltb_spec (lenZ (of_class lab idx c)) n) as [|Hle]; [lia|].
  destruct (choice R s (of_class lab idx c) (Z.to_nat n)) as [ch s1].
  destruct (IH s1 nr ltac:(lia) Hr) as (out & ->). eexists; reflexivity.
Qed.

(* ---------- select_labeled ---------- *)
Lemma select_labeled_subset R ord s train lab spec out :
  argsort_valid ord -> NoDup train ->
  select_labeled R ord s train lab spec = Ok out ->
  ascending out /\ incl out train /\
  (forall c, class_size lab c out <= class_size lab c train).
Proof.
  intros Hv Hnd E.
  assert (Hmain : ascending out /\ incl out train).
  { unfold select_labeled in E. destruct train as [|t0 tr] eqn:Et.
    { injection E as <-. split; [constructor|intros x []]. }
    rewrite <- Et in *.
    destruct (l_fixed spec) as [fixed|].
    - destruct (negb _) eqn:Hd; [discriminate|]. destruct (has_dup fixed) eqn:Hdup; [discriminate|].
      injection E as <-. apply has_dup_false in Hdup.
      apply negb_false_iff, Nat.eqb_eq, length_zero_iff_nil in Hd.
      split; [apply sortZ_ascending, Hdup|]. intros x Hx. rewrite sortZ_In in Hx.
      apply setdiff1d_nil in Hd. apply Hd, Hx.
    - destruct (class_counts (map lab train)) as [classes counts] eqn:Ec.
      destruct (label_target _ _ _) as [target|]; cbn [bind] in E; [|discriminate].
      destruct (label_alloc _ _ _ _ _) as [pc|] eqn:Ea; [|discriminate].
      destruct (choose_loop R s lab train classes pc) as [[o s1]|] eqn:Eo; cbn [bind fst] in E;
        [|discriminate].
      destruct (_ <? _); [discriminate|]. destruct (has_dup (sortZ o)) eqn:Hdup; [discriminate|].
      injection E as <-. apply has_dup_false in Hdup.
      split; [apply sorted_le_NoDup_lt; [apply sortZ_sorted|exact Hdup]|].
      intros x Hx. rewrite sortZ_In in Hx.
      clear -Eo Hx. revert s pc o Eo x Hx.
      induction classes as [|c cr IH]; intros s [|n nr] o Eo x Hx; cbn in Eo;
        try (injection Eo as <- <-; contradiction).
      destruct (n <=? 0); [eapply IH; eassumption|].
      destruct (Z.ltb_spec (lenZ (of_class lab train c)) n) as [|Hle]; [discriminate|].
      pose proof (choice_ok R s (of_class lab train c) (Z.to_nat n)
                    ltac:(unfold lenZ in Hle; lia)) as (_ & rest & Hp).
      destruct (choice R s (of_class lab train c) (Z.to_nat n)) as [ch s2]. cbn [fst] in Hp.
      destruct (choose_loop R s2 lab train cr nr) as [[o2 s3]|] eqn:E2; cbn in Eo; [|discriminate].
      injection Eo as <- <-. apply in_app_or in Hx. destruct Hx as [Hx|Hx].
      + assert (In x (of_class lab train c)) as Hi by (rewrite <- Hp; apply in_or_app; auto).
        apply of_class_In in Hi. tauto.
      + eapply IH; eassumption. }
  destruct Hmain as (Ha & Hi). split; [exact Ha|]. split; [exact Hi|].
  intros c. unfold class_size, lenZ. apply inj_le.
  apply NoDup_incl_length; [apply NoDup_filter, ascending_NoDup, Ha|].
  intros x Hx. apply filter_In in Hx. apply filter_In. split; [apply Hi|]; tauto.
Qed.

Lemma select_labeled_fixed R ord s train lab spec fixed :
  l_fixed spec = Some fixed -> train <> [] ->
  (NoDup fixed /\ incl fixed train ->
     exists out, select_labeled R ord s train lab spec = Ok out /\ forall x, In x out <-> In x fixed) /\
  (~ (NoDup fixed /\ incl fixed train) ->
     select_labeled R ord s train lab spec = Err SamplingValidationError).
Proof.
  intros Hf Ht. unfold select_labeled. destruct train as [|t0 tr] eqn:Et; [congruence|].
  rewrite <- Et in *. rewrite Hf. split.
  - intros (Hnd & Hi). exists (sortZ fixed).
    apply setdiff1d_nil in Hi. rewrite Hi. cbn.
    apply has_dup_false in Hnd. rewrite Hnd. split; [reflexivity|apply sortZ_In].
  - intros Hn. destruct (negb _) eqn:Hd; [reflexivity|].
    destruct (has_dup fixed) eqn:Hdup; [reflexivity|]. elim Hn.
    apply has_dup_false in Hdup. apply negb_false_iff, Nat.eqb_eq, length_zero_iff_nil in Hd.
    apply setdiff1d_nil in Hd. auto.
Qed.

Lemma uniqueZ_nodup l : Permutation (uniqueZ l) (nodup Z.eq_dec l).
Proof.
  apply NoDup_Permutation; [apply uniqueZ_NoDup|apply NoDup_nodup|].
  intros x. rewrite uniqueZ_In, nodup_In. reflexivity.
Qed.

Lemma label_target_spec m n nc t :
  requested_labels m n nc t -> label_target m n nc = Ok (clampZ 0 n t).
Proof.
  unfold requested_labels, label_target, clampZ. destruct m as [f|v|v].
  - intros (H1 & H2 & H3). rewrite H1, H2. cbn [andb].
    destruct (round_mul f n) as [r|] eqn:Er; cbn [bind].
    + apply round_mul_spec in Er. rewrite (rounded_share_unique f n r t Er H3). reflexivity.
    + apply round_mul_err in Er. destruct H3 as (q & Hq & _). congruence.
  - intros ->. reflexivity.
  - intros ->. reflexivity.
Qed.

Lemma guaranteed_sum mn lab train :
  sumZ (map (floor_of mn) (snd (unique_counts (map lab train)))) =
  sumZ (map (guaranteed mn lab train) (distinct_labels lab train)).
Proof.
  cbn. rewrite map_map. unfold distinct_labels.
  rewrite <- (sumZ_perm _ _ (Permutation_map (guaranteed mn lab train) (uniqueZ_nodup (map lab train)))).
  f_equal. apply map_ext. intros c. unfold floor_of, guaranteed.
  rewrite of_class_count. reflexivity.
Qed.

Lemma lenZ_distinct lab train : lenZ (uniqueZ (map lab train)) = lenZ (distinct_labels lab train).
Proof. unfold distinct_labels. apply lenZ_perm, uniqueZ_nodup. Qed.

Lemma map_max0_id l : (forall j, (j < length l)%nat -> 0 <= nth j l 0) -> sumZ (map (Z.max 0) l) = sumZ l.
Proof.
  induction l as [|x r IH]; intros H; cbn; [reflexivity|].
  rewrite IH; [|intros j Hj; apply (H (S j)); cbn; lia].
  specialize (H 0%nat ltac:(cbn; lia)). cbn in H. lia.
Qed.

Lemma select_labeled_size R ord s train lab spec t :
  argsort_valid ord -> NoDup train -> train <> [] -> l_fixed spec = None ->
  match l_mode spec with MPerClass v => 0 <= v | _ => True end ->
  requested_labels (l_mode spec) (lenZ train) (lenZ (distinct_labels lab train)) t ->
  let mn := l_min_per_class spec in
  exists out,
    select_labeled R ord s train lab spec = Ok out /\
    lenZ out = Z.max (clampZ 0 (lenZ train) t)
                     (sumZ (map (guaranteed mn lab train) (distinct_labels lab train))) /\
    (forall c, guaranteed mn lab train c <= class_size lab c out) /\
    (forall v c, l_mode spec = MPerClass v -> mn <= v ->
       Z.min v (class_size lab c train) <= class_size lab c out).
Proof.
  intros Hv Hnd Hne Hfix Hm Hreq. cbv zeta. set (mn := l_min_per_class spec).
  unfold select_labeled. destruct train as [|t0 tr] eqn:Et; [congruence|].
  rewrite <- Et in *. clear Et t0 tr. rewrite Hfix, class_counts_eq.
  destruct (unique_counts (map lab train)) as [classes counts] eqn:Ec.
  assert (Hcl : classes = uniqueZ (map lab train)) by (injection Ec as <- _; reflexivity).
  assert (Hco : counts = snd (unique_counts (map lab train))) by (rewrite Ec; reflexivity).
  assert (Hlc : length counts = length classes).
  { rewrite Hco, Hcl. cbn. apply map_length. }
  assert (Hsum : sumZ counts = lenZ train) by (rewrite Hco; apply unique_counts_sum).
  assert (Hpos : Forall (fun c => 0 < c) counts) by (rewrite Hco; apply unique_counts_pos).
  assert (Hnc : lenZ classes = lenZ (distinct_labels lab train)) by (rewrite Hcl; apply lenZ_distinct).
  rewrite Hnc, (label_target_spec _ _ _ _ Hreq). cbn [bind].
  set (target := clampZ 0 (lenZ train) t).
  assert (Htr : 0 <= target <= lenZ train) by (unfold target, clampZ, lenZ; lia).
  rewrite <- Hsum in Htr.
  destruct (label_alloc_spec ord spec counts target Hv Hpos Htr Hm) as (pc & Ea & H1 & H2 & H3 & H4).
  rewrite Hsum in Ea. rewrite Ea.
  assert (Hnth : forall j, (j < length classes)%nat ->
            nth j counts 0 = class_size lab (nth j classes 0) train).
  { intros j Hj. rewrite Hco, Hcl. rewrite nth_counts by (rewrite <- Hcl; exact Hj). reflexivity. }
  destruct (choose_loop_ok R s lab train classes pc Hnd ltac:(lia)) as ([o s1] & Eo).
  { intros j Hj. specialize (H2 j ltac:(lia)).
    change (lenZ (of_class lab train (nth j classes 0))) with (class_size lab (nth j classes 0) train).
    rewrite <- Hnth by exact Hj. lia. }
  rewrite Eo. cbn [bind fst].
  assert (Hndc : NoDup classes) by (rewrite Hcl; apply uniqueZ_NoDup).
  destruct (choose_loop_spec R s lab train classes pc o s1 Hnd Hndc ltac:(lia) Eo)
    as (Ho1 & Ho2 & Ho3 & Ho4 & Ho5).
  assert (Hpc0 : forall j, (j < length pc)%nat -> 0 <= nth j pc 0).
  { intros j Hj. specialize (H2 j ltac:(lia)). pose proof (floor_of_nonneg (l_min_per_class spec) (nth j counts 0)). lia. }
  rewrite (map_max0_id pc Hpc0) in Ho4.
  assert (Hlen : lenZ (sortZ o) = lenZ o) by (unfold lenZ; rewrite sortZ_length; reflexivity).
  assert (Hle : lenZ o <= lenZ train) by (apply inj_le, NoDup_incl_length; assumption).
  replace (lenZ train <? lenZ (sortZ o)) with false by lia.
  assert (has_dup (sortZ o) = false) as ->.
  { apply has_dup_false. eapply Permutation_NoDup; [symmetry; apply sortZ_perm|exact Ho1]. }
  exists (sortZ o). split; [reflexivity|].
  assert (Hcs : forall c, class_size lab c (sortZ o) = class_size lab c o).
  { intros c. apply class_size_perm, sortZ_perm. }
  assert (Hno : forall c, ~ In c classes -> class_size lab c train = 0).
  { intros c Hni. unfold class_size. rewrite filter_none; [reflexivity|].
    intros x Hx. apply Z.eqb_neq. intros He. apply Hni. rewrite Hcl, <- He. apply classes_cover, Hx. }
  split; [|split].
  - rewrite Hlen, Ho4, H3, Hco. rewrite guaranteed_sum. reflexivity.
  - intros c. rewrite Hcs. destruct (in_dec Z.eq_dec c classes) as [Hin|Hni].
    + destruct (In_nth _ _ 0 Hin) as (j & Hj & <-).
      destruct (Ho5 j Hj) as (Ho6 & _). specialize (H2 j ltac:(lia)).
      rewrite Ho6. unfold guaranteed. rewrite <- Hnth by exact Hj.
      unfold floor_of in H2. fold mn in H2. destruct (mn <=? nth j counts 0); lia.
    + unfold guaranteed. rewrite (Hno c Hni).
      assert (0 <= class_size lab c o) by (unfold class_size, lenZ; lia).
      destruct (Z.leb_spec mn 0); lia.
  - intros v c Hmv Hmn. rewrite Hcs. destruct (in_dec Z.eq_dec c classes) as [Hin|Hni].
    + destruct (In_nth _ _ 0 Hin) as (j & Hj & <-).
      destruct (Ho5 j Hj) as (Ho6 & _). rewrite Ho6, <- Hnth by exact Hj.
      assert (Hs : sumZ (map (fun c => Z.min v c) counts) <= target).
      { unfold target. rewrite Hmv in Hreq, Hm. cbn in Hreq. rewrite Hreq, <- Hnc, <- Hsum.
        assert (Hlz : lenZ classes = lenZ counts) by (unfold lenZ; lia). rewrite Hlz.
        clear -Hpos Hm. induction Hpos as [|x r Hx Hr IH]; cbn [map sumZ].
        - unfold clampZ, lenZ; cbn; lia.
        - unfold clampZ, lenZ in *; cbn [length] in *.
          assert (0 <= sumZ r) by (apply sumZ_nonneg; eapply Forall_impl; [|exact Hr]; cbn; lia).
          nia. }
      specialize (H4 v Hmv Hmn Hs j ltac:(lia)). lia.
    + rewrite (Hno c Hni). assert (0 <= class_size lab c o) by (unfold class_size, lenZ; lia). lia.
Qed.

Lemma sumZ_const (v : Z) (counts : list Z) : sumZ (map (fun _ => v) counts) = v * lenZ counts.
Proof. unfold lenZ. induction counts as [|c r IH]; cbn [map sumZ length]; lia. Qed.

(* when every class is large enough the per-class request is met exactly *)
Lemma select_labeled_per_class_exact R ord s train lab spec v :
  argsort_valid ord -> NoDup train -> train <> [] -> l_fixed spec = None ->
  l_mode spec = MPerClass v -> 0 <= v -> l_min_per_class spec <= v ->
  (forall x, In x train -> v <= class_size lab (lab x) train) ->
  exists out, select_labeled R ord s train lab spec = Ok out /\
    forall x, In x train -> class_size lab (lab x) out = v.
Proof.
  intros Hv Hnd Hne Hfix Hmode Hv0 Hmn Hbig.
  destruct (select_labeled_size R ord s train lab spec (v * lenZ (distinct_labels lab train)) Hv Hnd Hne Hfix)
    as (out & E & Hlen & Hg & Hpc).
  { rewrite Hmode. exact Hv0. }
  { rewrite Hmode. reflexivity. }
  exists out. split; [exact E|].
  destruct (select_labeled_subset R ord s train lab spec out Hv Hnd E) as (Ha & Hi & Hle).
  assert (Hge : forall c, In c (distinct_labels lab train) -> v <= class_size lab c out).
  { intros c Hc. apply nodup_In in Hc. apply in_map_iff in Hc. destruct Hc as (x & <- & Hx).
    specialize (Hpc v (lab x) Hmode Hmn). specialize (Hbig x Hx). lia. }
  (* the total leaves no room for more *)
  assert (Htot : lenZ out = sumZ (map (fun c => class_size lab c out) (distinct_labels lab train))).
  { assert (Hmo : lenZ out = lenZ (map lab out)) by (unfold lenZ; rewrite map_length; reflexivity).
    rewrite Hmo, <- (sum_counts_unique (map lab out) (distinct_labels lab train)).
    - f_equal. apply map_ext. intros c. apply countZ_filter.
    - apply NoDup_nodup.
    - intros y Hy. apply in_map_iff in Hy. destruct Hy as (x & <- & Hx). apply nodup_In, in_map, Hi, Hx. }
  assert (Hup : lenZ out <= v * lenZ (distinct_labels lab train)).
  { rewrite Hlen. unfold clampZ.
    assert (sumZ (map (guaranteed (l_min_per_class spec) lab train) (distinct_labels lab train))
            <= v * lenZ (distinct_labels lab train)).
    { rewrite <- sumZ_const. apply sumZ_map_le; [apply map_length|].
      intros j Hj. rewrite (nth_map_Z (fun _ => v)) by exact Hj.
      unfold guaranteed. destruct (_ <=? _); lia. }
    assert (0 <= lenZ (distinct_labels lab train)) by (unfold lenZ; lia). nia. }
  intros x Hx.
  assert (Hin : In (lab x) (distinct_labels lab train)) by (apply nodup_In, in_map, Hx).
  rewrite Htot in Hup. clear -Hup Hge Hin.
  induction (distinct_labels lab train) as [|a r IH]; [contradiction|].
  cbn [map sumZ] in Hup. unfold lenZ in *. cbn [length] in Hup.
  pose proof (Hge a (or_introl eq_refl)) as H0.
  assert (Hr : v * Z.of_nat (length r) <= sumZ (map (fun c => class_size lab c out) r)).
  { assert (Hge' : forall c, In c r -> v <= class_size lab c out) by (intros; apply Hge; right; assumption).
    clear -Hge'. induction r as [|b t IH]; cbn [map sumZ length]; [lia|].
    pose proof (Hge' b (or_introl eq_refl)).
    specialize (IH (fun c Hc => Hge' c (or_intror Hc))). lia. }
  destruct Hin as [->|Hin]; [lia|].
  apply IH; auto; [|lia]. intros c Hc; apply Hge; right; exact Hc.
Qed.

(* ---------- imbalance ---------- *)
Lemma subsample_loop_spec R s lab idx cap classes out s' :
  NoDup idx -> NoDup classes -> 0 <= cap ->
  subsample_loop R s lab idx cap classes = (out, s') ->
  NoDup out /\ incl out idx /\ (forall x, In x out -> In (lab x) classes) /\
  (forall c, In c classes -> class_size lab c out = Z.min (class_size lab c idx) cap).
Proof.
  intros Hnd. revert s out s'; induction classes as [|c cr IH]; intros s out s' Hndc Hcap E; cbn in E.
  { injection E as <- <-. split; [constructor|]. split; [intros x []|]. split; intros x []. }
  inversion Hndc as [|? ? Hni Hndc']; subst.
  destruct (if _ <=? _ then _ else _) as [part s1] eqn:Ep.
  destruct (subsample_loop R s1 lab idx cap cr) as [rest s2] eqn:Er. injection E as <- <-.
  destruct (IH s1 rest s2 Hndc' Hcap Er) as (H1 & H2 & H3 & H4).
  assert (Hpart : NoDup part /\ incl part (of_class lab idx c) /\
                  lenZ part = Z.min (class_size lab c idx) cap).
  { change (class_size lab c idx) with (lenZ (of_class lab idx c)).
    destruct (Z.leb_spec (lenZ (of_class lab idx c)) cap) as [Hle|Hgt].
    - injection Ep as <- <-. split; [apply of_class_NoDup, Hnd|]. split; [apply incl_refl|]. lia.
    - pose proof (choice_facts R s (of_class lab idx c) (Z.to_nat cap) ltac:(unfold lenZ in Hgt; lia)
                    (of_class_NoDup _ _ _ Hnd)) as Hc. cbv zeta in Hc. rewrite Ep in Hc.
      cbn [fst] in Hc. destruct Hc as (Hc1 & Hc2 & Hc3). split; [exact Hc2|]. split; [exact Hc3|].
      unfold lenZ in *. lia. }
  destruct Hpart as (Hp1 & Hp2 & Hp3).
  assert (Hcc : forall x, In x part -> In x idx /\ lab x = c)
    by (intros x Hx; apply of_class_In, Hp2, Hx).
  split; [|split; [|split]].
  - apply NoDup_app_iff. split; [exact Hp1|]. split; [exact H1|].
    intros x Hx Hx2. apply Hni. destruct (Hcc x Hx) as (_ & <-). apply H3, Hx2.
  - intros x Hx. apply in_app_or in Hx. destruct Hx as [Hx|Hx]; [apply Hcc, Hx|apply H2, Hx].
  - intros x Hx. apply in_app_or in Hx. destruct Hx as [Hx|Hx].
    + left. symmetry. apply Hcc, Hx. + right. apply H3, Hx.
  - intros d Hd. rewrite class_size_app. destruct (Z.eq_dec d c) as [->|Hne].
    + assert (of_class lab rest c = []) as Hz.
      { apply of_class_nil. intros x Hx He. apply Hni. rewrite <- He. apply H3, Hx. }
      assert (of_class lab part c = part) as Ha by (apply of_class_all; intros x Hx; apply Hcc, Hx).
      unfold class_size at 1 2. unfold of_class in Hz, Ha. rewrite Hz, Ha, Hp3. unfold lenZ; cbn [length]. lia.
    + destruct Hd as [->|Hd]; [congruence|]. rewrite (H4 d Hd).
      assert (of_class lab part d = []) as Hz.
      { apply of_class_nil. intros x Hx He. apply Hne. rewrite <- He. apply Hcc, Hx. }
      unfold class_size at 1. unfold of_class in Hz. rewrite Hz. unfold lenZ; cbn [length]. lia.
Qed.

Lemma longtail_loop_spec R s lab idx classes desired out s' :
  NoDup idx -> NoDup classes -> length desired = length classes ->
  longtail_loop R s lab idx classes desired = Ok (out, s') ->
  NoDup out /\ incl out idx /\ (forall x, In x out -> In (lab x) classes) /\
  (forall j, (j < length classes)%nat ->
     class_size lab (nth j classes 0) out =
     Z.min (class_size lab (nth j classes 0) idx) (nth j desired 0)).
Proof.
  intros Hnd. revert s desired out s'; induction classes as [|c cr IH];
    intros s [|n nr] out s' Hndc Hl E; cbn in Hl; try lia; cbn in E.
  { injection E as <- <-. split; [constructor|]. split; [intros x []|]. split; [intros x []|cbn; lia]. }
  inversion Hndc as [|? ? Hni Hndc']; subst.
  assert (Hpart : exists part s1 rest s2,
    longtail_loop R s1 lab idx cr nr = Ok (rest, s2) /\ out = part ++ rest /\
    NoDup part /\ incl part (of_class lab idx c) /\ lenZ part = Z.min (class_size lab c idx) n).
  { change (class_size lab c idx) with (lenZ (of_class lab idx c)).
    destruct (Z.leb_spec (lenZ (of_class lab idx c)) n) as [Hle|Hgt].
    - destruct (longtail_loop R s lab idx cr nr) as [[rest s2]|] eqn:Er; cbn in E; [|discriminate].
      injection E as <- <-. exists (of_class lab idx c), s, rest, s2.
      split; [exact Er|]. split; [reflexivity|]. split; [apply of_class_NoDup, Hnd|].
      split; [apply incl_refl|]. lia.
    - destruct (Z.ltb_spec n 0) as [|Hn0]; [discriminate|].
      pose proof (choice_facts R s (of_class lab idx c) (Z.to_nat n) ltac:(unfold lenZ in Hgt; lia)
                    (of_class_NoDup _ _ _ Hnd)) as Hc. cbv zeta in Hc.
      destruct (choice R s (of_class lab idx c) (Z.to_nat n)) as [ch s1]. cbn [fst] in Hc.
      destruct Hc as (Hc1 & Hc2 & Hc3).
      destruct (longtail_loop R s1 lab idx cr nr) as [[rest s2]|] eqn:Er; cbn in E; [|discriminate].
      injection E as <- <-. exists ch, s1, rest, s2.
      split; [exact Er|]. split; [reflexivity|]. split; [exact Hc2|]. split; [exact Hc3|].
      unfold lenZ in *. lia. }
  destruct Hpart as (part & s1 & rest & s2 & Er & -> & Hp1 & Hp2 & Hp3).
  destruct (IH s1 nr rest s2 Hndc' ltac:(lia) Er) as (H1 & H2 & H3 & H4).
  assert (Hcc : forall x, In x part -> In x idx /\ lab x = c)
    by (intros x Hx; apply of_class_In, Hp2, Hx).
  split; [|split; [|split]].
  - apply NoDup_app_iff. split; [exact Hp1|]. split; [exact H1|].
    intros x Hx Hx2. apply Hni. destruct (Hcc x Hx) as (_ & <-). apply H3, Hx2.
  - intros x Hx. apply in_app_or in Hx. destruct Hx as [Hx|Hx]; [apply Hcc, Hx|apply H2, Hx].
  - intros x Hx. apply in_app_or in Hx. destruct Hx as [Hx|Hx].
    + left. symmetry. apply Hcc, Hx. + right. apply H3, Hx.
  - intros [|j] Hj; cbn [nth]; rewrite class_size_app.
    + assert (of_class lab rest c = []) as Hz.
      { apply of_class_nil. intros x Hx He. apply Hni. rewrite <- He. apply H3, Hx. }
      assert (of_class lab part c = part) as Ha by (apply of_class_all; intros x Hx; apply Hcc, Hx).
      unfold class_size at 1 2. unfold of_class in Hz, Ha. rewrite Hz, Ha, Hp3. unfold lenZ; cbn [length]. lia.
    + cbn in Hj. rewrite (H4 j ltac:(lia)).
      assert (of_class lab part (nth j cr 0) = []) as Hz.
      { apply of_class_nil. intros x Hx He. apply Hni.
        destruct (Hcc x Hx) as (_ & <-). rewrite He. apply nth_In. lia. }
      unfold class_size at 1. unfold of_class in Hz. rewrite Hz. unfold lenZ; cbn [length]. lia.
Qed.

Lemma longtail_loop_ok R s lab idx classes desired :
  (forall j, 0 <= nth j desired 0) -> exists r, longtail_loop R s lab idx classes desired = Ok r.
Proof.
  revert s desired; induction classes as [|c cr IH]; intros s [|n nr] H; cbn;
    try (eexists; reflexivity).
  assert (Hr : forall j, 0 <= nth j nr 0) by (intros j; apply (H (S j))).
  pose proof (H 0%nat) as H0. cbn in H0.
  destruct (_ <=? n).
  - destruct (IH s nr Hr) as (r & ->). eexists; reflexivity.
  - replace (n <? 0) with false by lia.
    destruct (choice _ _ _ _) as [ch s1]. destruct (IH s1 nr Hr) as (r & ->). eexists; reflexivity.
Qed.

(* desired_counts writes, at the position of rank r, the count of that rank *)
Lemma desired_fold_nth (g : nat -> nat -> Z) (l : list (nat * nat)) d j :
  NoDup (map snd l) -> Forall (fun p => (snd p < length d)%nat) l ->
  nth j (fold_left (fun d p => update d (snd p) (fun _ => g (fst p) (snd p))) l d) 0 =
  match find (fun p => Nat.eqb (snd p) j) l with
  | Some p => g (fst p) (snd p)
  | None => nth j d 0
  end.
Proof.
  revert d; induction l as [|[r i] t IH]; intros d Hnd Hf; cbn; [reflexivity|].
  cbn in Hnd. inversion Hnd as [|? ? Hni Hnd']; subst. inversion Hf as [|? ? Hi Hf']; subst. cbn in Hi.
  rewrite IH; [|exact Hnd'|rewrite update_length; exact Hf'].
  destruct (Nat.eqb_spec i j) as [->|Hne].
  - destruct (find _ t) as [p|] eqn:Ef.
    + apply find_some in Ef. destruct Ef as (Hp & He). apply Nat.eqb_eq in He.
      elim Hni. rewrite <- He. apply in_map, Hp.
    + rewrite update_nth by exact Hi. rewrite Nat.eqb_refl. reflexivity.
  - destruct (find _ t) as [p|]; [reflexivity|]. rewrite update_nth by exact Hi.
    destruct (Nat.eqb_spec j i) as [->|]; [congruence|reflexivity].
Qed.

Lemma find_combine_rank (order : list nat) base r :
  NoDup order -> (r < length order)%nat ->
  find (fun p => Nat.eqb (snd p) (nth r order 0%nat)) (combine (seq base (length order)) order)
  = Some ((base + r)%nat, nth r order 0%nat).
Proof.
  revert base r; induction order as [|i t IH]; intros base r Hnd Hr; cbn in Hr; [lia|].
  inversion Hnd as [|? ? Hni Hnd']; subst.
  destruct r as [|r]; cbn [length seq combine find snd nth].
  - rewrite Nat.eqb_refl. do 2 f_equal; lia.
  - destruct (Nat.eqb_spec i (nth r t 0%nat)) as [He|_].
    + elim Hni. rewrite He. apply nth_In. lia.
    + rewrite (IH (S base) r Hnd' ltac:(lia)). do 2 f_equal; lia.
Qed.

Lemma desired_counts_nth decay order counts mn r :
  Permutation order (seq 0 (length counts)) -> (r < length counts)%nat ->
  let mx := nth (nth 0 order 0%nat) counts 0 in
  nth (nth r order 0%nat) (desired_counts decay order counts mn) 0 =
  Z.min (Z.max (decay mx r) mn) (nth (nth r order 0%nat) counts 0).
Proof.
  intros Hp Hr. cbv zeta. unfold desired_counts.
  assert (Hl : length order = length counts) by (rewrite (Permutation_length Hp); apply seq_length).
  assert (Hnd : NoDup order) by (eapply Permutation_NoDup; [symmetry; exact Hp|apply seq_NoDup]).
  set (mx := match order with [] => 0 | i :: _ => nth i counts 0 end).
  assert (Hmx : mx = nth (nth 0 order 0%nat) counts 0).
  { unfold mx. destruct order; [cbn in Hl; lia|reflexivity]. }
  rewrite (desired_fold_nth (fun a i => Z.min (Z.max (decay mx a) mn) (nth i counts 0))).
  - rewrite find_combine_rank by (auto; lia). cbn [fst snd]. rewrite Hmx. reflexivity.
  - assert (map snd (combine (seq 0 (length order)) order) = order) as ->; [|exact Hnd].
    clear. generalize 0%nat. induction order as [|i t IH]; intros b; cbn; [reflexivity|]. f_equal. apply IH.
  - apply Forall_forall. intros [a i] Hi. cbn. rewrite map_length.
    apply in_combine_r in Hi. rewrite Hp in Hi. apply in_seq in Hi. lia.
Qed.

Lemma desired_counts_length decay order counts mn :
  length (desired_counts decay order counts mn) = length counts.
Proof.
  unfold desired_counts.
  set (d0 := map (fun _ : Z => 0) counts). assert (length d0 = length counts) by apply map_length.
  revert H. generalize d0. generalize (combine (seq 0 (length order)) order).
  induction l as [|p t IH]; intros d Hd; cbn; [exact Hd|]. apply IH. rewrite update_length; exact Hd.
Qed.

Lemma apply_imbalance_subset R ord decay s idx lab spec out s' :
  argsort_valid ord -> NoDup idx ->
  apply_imbalance R ord decay s idx lab spec = Ok (out, s') ->
  ascending out /\ incl out idx.
Proof.
  intros Hv Hnd E.
  assert (Hsort : ascending (sortZ idx) /\ incl (sortZ idx) idx).
  { split; [apply sortZ_ascending, Hnd|]. intros x. apply sortZ_In. }
  assert (Hs : forall l, NoDup l -> incl l idx -> ascending (sortZ l) /\ incl (sortZ l) idx).
  { intros l Hl Hi. split; [apply sortZ_ascending, Hl|]. intros x Hx. apply Hi, sortZ_In, Hx. }
  unfold apply_imbalance in E. destruct (i_kind spec).
  - injection E as <- <-. exact Hsort.
  - destruct idx as [|i0 ir] eqn:Ei; [injection E as <- <-; exact Hsort|]. rewrite <- Ei in *.
    destruct (i_max_per_class spec) as [cap|]; [|discriminate].
    destruct (Z.ltb_spec cap 1) as [|Hc]; [discriminate|].
    destruct (subsample_loop R s lab idx cap (uniqueZ (map lab idx))) as [parts s1] eqn:El.
    injection E as <- <-.
    assert (Hc0 : 0 <= cap) by lia.
    destruct (subsample_loop_spec _ _ _ _ _ _ _ _ Hnd (uniqueZ_NoDup _) Hc0 El) as (H1 & H2 & _).
    apply Hs; assumption.
  - destruct idx as [|i0 ir] eqn:Ei; [injection E as <- <-; exact Hsort|]. rewrite <- Ei in *.
    destruct (i_alpha spec) as [a|]; [|discriminate].
    destruct (f64_ltb f64_zero a && f64_ltb a f64_one); [|discriminate].
    cbn [unique_counts] in E.
    match type of E with context [longtail_loop R s lab idx ?cl ?de] =>
      assert (Hlen : length de = length cl) by (rewrite desired_counts_length; apply map_length);
      destruct (longtail_loop R s lab idx cl de) as [[o s1]|] eqn:El end; cbn in E; [|discriminate].
    injection E as <- <-.
    destruct (longtail_loop_spec _ _ _ _ _ _ _ _ Hnd (uniqueZ_NoDup _) Hlen El) as (H1 & H2 & _).
    apply Hs; assumption.
Qed.

Lemma apply_imbalance_none R ord decay s idx lab spec :
  NoDup idx -> i_kind spec = INone ->
  exists out s', apply_imbalance R ord decay s idx lab spec = Ok (out, s') /\
    forall x, In x out <-> In x idx.
Proof.
  intros Hnd Hk. unfold apply_imbalance. rewrite Hk. exists (sortZ idx), s.
  split; [destruct idx; reflexivity|]. apply sortZ_In.
Qed.

Lemma class_size_absent lab c idx : ~ In c (uniqueZ (map lab idx)) -> class_size lab c idx = 0.
Proof.
  intros Hni. unfold class_size. rewrite filter_none; [reflexivity|].
  intros x Hx. apply Z.eqb_neq. intros He. apply Hni. rewrite <- He. apply classes_cover, Hx.
Qed.

Lemma class_size_incl_zero lab c out idx :
  incl out idx -> class_size lab c idx = 0 -> class_size lab c out = 0.
Proof.
  intros Hi Hz. unfold class_size in *. rewrite filter_none; [reflexivity|].
  intros x Hx. destruct (lab x =? c) eqn:He; [exfalso|reflexivity].
  assert (In x (filter (fun i => lab i =? c) idx)) as Hin by (apply filter_In; auto).
  destruct (filter _ idx); [contradiction|]. unfold lenZ in Hz; cbn in Hz; lia.
Qed.

Lemma apply_imbalance_subsample R ord decay s idx lab spec cap :
  NoDup idx -> i_kind spec = ISubsample -> i_max_per_class spec = Some cap -> 1 <= cap ->
  exists out s', apply_imbalance R ord decay s idx lab spec = Ok (out, s') /\
    forall c, class_size lab c out = Z.min (class_size lab c idx) cap.
Proof.
  intros Hnd Hk Hm Hc. unfold apply_imbalance. rewrite Hk, Hm.
  destruct idx as [|i0 ir] eqn:Ei.
  { exists [], s. split; [reflexivity|]. intros c. unfold class_size, lenZ; cbn; lia. }
  rewrite <- Ei in *. clear Ei i0 ir.
  replace (cap <? 1) with false by lia.
  destruct (subsample_loop R s lab idx cap (uniqueZ (map lab idx))) as [parts s1] eqn:El.
  exists (sortZ parts), s1. split; [reflexivity|]. intros c.
  assert (Hc0 : 0 <= cap) by lia.
  destruct (subsample_loop_spec _ _ _ _ _ _ _ _ Hnd (uniqueZ_NoDup _) Hc0 El)
    as (_ & H2 & _ & H4).
  rewrite (class_size_perm lab c _ _ (sortZ_perm parts)).
  destruct (in_dec Z.eq_dec c (uniqueZ (map lab idx))) as [Hin|Hni]; [apply H4, Hin|].
  apply class_size_absent in Hni. rewrite (class_size_incl_zero _ _ _ _ H2 Hni), Hni. lia.
Qed.

Lemma apply_imbalance_longtail R ord decay s idx lab spec alpha :
  argsort_valid ord -> argsort_sorted ord -> NoDup idx -> idx <> [] ->
  i_kind spec = ILongTail -> i_alpha spec = Some alpha ->
  f64_ltb f64_zero alpha = true -> f64_ltb alpha f64_one = true ->
  (forall m r, 0 <= decay alpha m r) ->
  exists out s' ranking,
    apply_imbalance R ord decay s idx lab spec = Ok (out, s') /\
    Permutation ranking (distinct_labels lab idx) /\
    Sorted (fun a b => class_size lab b idx <= class_size lab a idx) ranking /\
    forall r, (r < length ranking)%nat ->
      let c := nth r ranking 0 in
      let max_count := class_size lab (nth 0 ranking 0) idx in
      class_size lab c out =
      Z.min (class_size lab c idx) (Z.max (decay alpha max_count r) (i_min_per_class spec)).
Proof.
  intros Hv Hso Hnd Hne Hk Ha H0 H1 Hdec. unfold apply_imbalance. rewrite Hk, Ha, H0, H1.
  cbn [andb]. destruct idx as [|i0 ir] eqn:Ei; [congruence|]. rewrite <- Ei in *. clear Ei i0 ir.
  cbn [unique_counts]. set (classes := uniqueZ (map lab idx)).
  set (counts := map (fun c => countZ c (map lab idx)) classes).
  set (order := ord (map Z.opp counts)).
  assert (Hlc : length counts = length classes) by apply map_length.
  assert (Hop : Permutation order (seq 0 (length counts))).
  { unfold order. rewrite (Hv (map Z.opp counts)), map_length. reflexivity. }
  assert (Hol : length order = length classes).
  { rewrite (Permutation_length Hop), seq_length. exact Hlc. }
  assert (Hnth : forall j, (j < length classes)%nat ->
            nth j counts 0 = class_size lab (nth j classes 0) idx).
  { intros j Hj. unfold counts. rewrite (nth_map_Z (fun c => countZ c (map lab idx))) by exact Hj.
    apply of_class_count. }
  assert (Hlt : forall r, (r < length order)%nat -> (nth r order 0 < length classes)%nat).
  { intros r Hr. assert (In (nth r order 0%nat) order) as Hin by (apply nth_In, Hr).
    apply (Permutation_in _ Hop) in Hin. apply in_seq in Hin. lia. }
  set (desired := desired_counts (decay alpha) order counts (i_min_per_class spec)).
  assert (Hdes : forall r, (r < length classes)%nat ->
    nth (nth r order 0%nat) desired 0 =
    Z.min (Z.max (decay alpha (nth (nth 0 order 0%nat) counts 0) r) (i_min_per_class spec))
          (nth (nth r order 0%nat) counts 0)).
  { intros r Hr. apply (desired_counts_nth (decay alpha) order counts (i_min_per_class spec) r Hop). lia. }
  assert (Hpos : forall j, 0 <= nth j desired 0).
  { intros j. destruct (Nat.ltb_spec j (length classes)) as [Hj|Hj].
    - assert (In j order) as Hin by (rewrite Hop; apply in_seq; lia).
      destruct (In_nth _ _ 0%nat Hin) as (r & Hr & <-). rewrite Hdes by lia.
      pose proof (Hdec (nth (nth 0 order 0%nat) counts 0) r) as Hd.
      rewrite (Hnth (nth r order 0%nat)) by (apply Hlt, Hr).
      unfold class_size, lenZ. lia.
    - rewrite nth_overflow; [lia|]. unfold desired. rewrite desired_counts_length. lia. }
  destruct (longtail_loop_ok R s lab idx classes desired Hpos) as ([o s1] & El).
  rewrite El. cbn [bind fst snd].
  assert (Hdl : length desired = length classes)
    by (unfold desired; rewrite desired_counts_length; exact Hlc).
  destruct (longtail_loop_spec _ _ _ _ _ _ _ _ Hnd (uniqueZ_NoDup _) Hdl El) as (_ & _ & _ & H4).
  exists (sortZ o), s1, (map (fun j => nth j classes 0) order).
  split; [reflexivity|].
  assert (Hrank : forall r, (r < length order)%nat ->
            nth r (map (fun j => nth j classes 0) order) 0 = nth (nth r order 0%nat) classes 0).
  { intros r Hr. rewrite (nth_indep _ 0 (nth 0 classes 0)) by (rewrite map_length; exact Hr).
    apply (map_nth (fun j => nth j classes 0)). }
  split; [|split].
  - rewrite Hop, Hlc, map_nth_seq. unfold distinct_labels. apply uniqueZ_nodup.
  - pose proof (Hso (map Z.opp counts)) as Hs. fold order in Hs.
    assert (Hin : forall j, In j order -> (j < length classes)%nat).
    { intros j Hj. rewrite Hop in Hj. apply in_seq in Hj. lia. }
    revert Hs Hin. clear -Hnth Hlc. generalize order as l.
    induction l as [|a t IH]; intros Hs Hin; cbn; [constructor|].
    inversion Hs as [|? ? Hs' Hh]; subst. constructor.
    + apply IH; [exact Hs'|]. intros j Hj; apply Hin; right; exact Hj.
    + destruct t as [|b t]; cbn; constructor. inversion Hh as [|? ? Hab]; subst.
      rewrite <- !Hnth by (apply Hin; cbn; auto).
      assert (a < length counts /\ b < length counts)%nat as (Hac & Hbc)
        by (rewrite Hlc; split; apply Hin; cbn; auto).
      rewrite !nth_map_Z in Hab by assumption. lia.
  - intros r Hr. rewrite map_length in Hr. cbv zeta. rewrite !Hrank by lia.
    rewrite (class_size_perm lab _ _ _ (sortZ_perm o)).
    rewrite H4 by (apply Hlt, Hr).
    fold classes. rewrite Hdes by lia. rewrite !Hnth by (apply Hlt; lia). lia.
Qed.

Lemma apply_imbalance_rejects R ord decay s idx lab spec :
  idx <> [] ->
  (i_kind spec = ISubsample /\
     match i_max_per_class spec with None => True | Some cap => cap < 1 end) \/
  (i_kind spec = ILongTail /\
     match i_alpha spec with
     | None => True
     | Some a => f64_ltb f64_zero a = false \/ f64_ltb a f64_one = false end) ->
  apply_imbalance R ord decay s idx lab spec = Err ValueError.
Proof.
  intros Hne H. unfold apply_imbalance. destruct idx as [|i0 ir]; [congruence|].
  destruct H as [(-> & H)|(-> & H)].
  - destruct (i_max_per_class spec) as [cap|]; [|reflexivity].
    replace (cap <? 1) with true by lia. reflexivity.
  - destruct (i_alpha spec) as [a|]; [|reflexivity].
    destruct H as [H|H]; rewrite H; [reflexivity|]. rewrite andb_false_r. reflexivity.
Qed.
