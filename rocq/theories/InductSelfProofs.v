From Coq Require Import List ZArith Lia Bool QArith Permutation Sorted Lqa ZifyBool ZifyNat.
From Verif Require Import Prelude ListFacts QFacts InductModel InductSpec InductProofs InductLoopProofs SampleServiceProofs.
Import ListNotations.
Open Scope Z_scope.

(* ----- the majority vote ----- *)
Lemma argmaxZ_from_spec r : forall full m a i,
  (a < i)%nat -> skipn i full = r -> (i <= length full)%nat -> nth a full 0 = m ->
  (forall j, (j < i)%nat -> nth j full 0 <= m) -> (forall j, (j < a)%nat -> nth j full 0 < m) ->
  let c := argmaxZ_from m a i r in
  (c < length full)%nat /\ (forall j, (j < length full)%nat -> nth j full 0 <= nth c full 0) /\
  (forall j, (j < c)%nat -> nth j full 0 < nth c full 0).
Proof.
  induction r as [|x r IH]; intros full m a i Ha Hs Hi Hm Hall Hlt; cbn [argmaxZ_from].
  - assert (length full = i).
    { pose proof (f_equal (@length Z) Hs) as E. rewrite skipn_length in E. cbn in E. lia. }
    split; [lia|]. rewrite Hm. split; [intros j Hj; apply Hall; lia|exact Hlt].
  - assert (Li : (i < length full)%nat).
    { pose proof (f_equal (@length Z) Hs) as E. rewrite skipn_length in E. cbn in E. lia. }
    assert (Hx : nth i full 0 = x).
    { rewrite <- (firstn_skipn i full), app_nth2, firstn_length_le, Nat.sub_diag, Hs; try lia.
      - reflexivity.
      - rewrite firstn_length_le; lia. }
    assert (Hs' : skipn (S i) full = r) by (rewrite skipn_tl, Hs; reflexivity).
    destruct (x <=? m) eqn:E.
    + apply IH; auto; try lia.
      intros j Hj. destruct (Nat.eq_dec j i) as [->|]; [lia|apply Hall; lia].
    + apply IH; auto; try lia.
      * intros j Hj. destruct (Nat.eq_dec j i) as [->|]; [lia|]. specialize (Hall j ltac:(lia)). lia.
      * intros j Hj. specialize (Hall j ltac:(lia)). lia.
Qed.

Lemma major_vote_majority votes : votes <> [] -> majority (major_vote votes) votes.
Proof.
  intros NE. unfold major_vote.
  pose proof (uniqueZ_ascending votes) as As. pose proof (uniqueZ_In votes) as Iu.
  destruct (map (fun l => countZ l votes) (uniqueZ votes)) as [|c cs] eqn:E.
  { apply map_eq_nil in E. destruct votes as [|v vs]; [congruence|]. exfalso.
    assert (H : In v (uniqueZ (v :: vs))) by (apply uniqueZ_In; now left). rewrite E in H. destruct H. }
  destruct (argmaxZ_from_spec cs (c :: cs) c 0 1) as (A & B & C); cbn; auto; try lia.
  { intros j Hj. replace j with 0%nat by lia. lia. }
  set (p := argmaxZ_from c 0 1 cs) in *. clearbody p. rewrite <- E in A, B, C. rewrite map_length in A, B.
  assert (K : forall j, (j < length (uniqueZ votes))%nat ->
    nth j (map (fun l => countZ l votes) (uniqueZ votes)) 0 = countZ (nth j (uniqueZ votes) 0) votes).
  { intros j Hj. rewrite (nth_indep _ 0 ((fun l => countZ l votes) 0)) by (rewrite map_length; exact Hj).
    apply (map_nth (fun l => countZ l votes)). }
  assert (Hin : In (nth p (uniqueZ votes) 0) votes) by (apply Iu, nth_In; exact A).
  split; [exact Hin|]. split.
  - intros l'. destruct (in_dec Z.eq_dec l' votes) as [Hl|Hl].
    + apply Iu in Hl. apply (In_nth _ _ 0) in Hl. destruct Hl as (j & Lj & <-).
      specialize (B j Lj). rewrite !K in B by assumption. unfold countZ in B. lia.
    + apply count_occ_not_In with (eq_dec := Z.eq_dec) in Hl. lia.
  - intros l' Hc Hl. apply Iu in Hl. apply (In_nth _ _ 0) in Hl. destruct Hl as (j & Lj & <-).
    destruct (le_lt_dec p j) as [Hpj|Hjp].
    + destruct (Nat.eq_dec p j) as [->|Hn]; [lia|].
      assert (nth p (uniqueZ votes) 0 < nth j (uniqueZ votes) 0); [|lia].
      assert (Hlt : (p < j)%nat) by lia. clear - As Hlt Lj. revert p j Hlt Lj.
      induction As as [|a u S IH F]; intros p j Hpj Lj; cbn in *; [lia|].
      destruct j as [|j]; [lia|]. rewrite Forall_forall in F. destruct p as [|p]; [apply F, nth_In; lia|].
      apply IH; lia.
    + specialize (C j Hjp). rewrite !K in C by lia. unfold countZ in C. lia.
Qed.

Lemma majority_unique votes a b : majority a votes -> majority b votes -> a = b.
Proof.
  intros (A1 & A2 & A3) (B1 & B2 & B3).
  assert (E : count_occ Z.eq_dec votes a = count_occ Z.eq_dec votes b).
  { specialize (A2 b). specialize (B2 a). lia. }
  specialize (A3 b (eq_sym E) B1). specialize (B3 a E A1). lia.
Qed.

Lemma filter_count_fst (votes : list (Z * Q)) l :
  length (filter (fun v => fst v =? l) votes) = count_occ Z.eq_dec (map fst votes) l.
Proof.
  induction votes as [|[a c] votes IH]; [reflexivity|]. cbn.
  destruct (Z.eq_dec a l) as [->|Hn]; [rewrite Z.eqb_refl; cbn; lia|].
  destruct (a =? l) eqn:E; [lia|exact IH].
Qed.

Lemma filter_dec_eqb (votes : list (Z * Q)) l :
  filter (fun v => if Z.eq_dec (fst v) l then true else false) votes = filter (fun v => fst v =? l) votes.
Proof.
  apply filter_ext. intros v. destruct (Z.eq_dec (fst v) l) as [->|H]; [now rewrite Z.eqb_refl|].
  destruct (fst v =? l) eqn:E; [lia|reflexivity].
Qed.

(* ----- the verdict of a group ----- *)
Definition model_votes (sp : st_spec) conf pred group_u (group_l : option (list Z)) yl gid : list (Z * Q) :=
  match group_l with
  | None => []
  | Some gl => map (fun i => (nth i yl 0, 1%Q)) (filter (fun i => nth i gl 0 =? gid) (seq 0 (length gl)))
  end ++
  map (fun i => (nth i pred 0, nth i conf 0%Q))
    (filter (fun i => above (st_thr sp) (nth i conf 0%Q))
      (filter (fun i => nth i group_u 0 =? gid) (seq 0 (length group_u)))).

Definition group_threshold (sp : st_spec) : option Q :=
  match st_group_thr sp with Some t => Some t | None => st_thr sp end.

Lemma group_verdict_eq sp conf pred group_u group_l yl gid :
  group_verdict sp conf pred group_u group_l yl gid =
  let votes := model_votes sp conf pred group_u group_l yl gid in
  if lenZ votes <? st_min_count sp then None
  else let label := major_vote (map fst votes) in
    if negb (Qle_bool (st_min_fraction sp) (ratio (countZ label (map fst votes)) (lenZ votes))) then None
    else let c := Qmean (map snd (filter (fun v => fst v =? label) votes)) in
      if above (group_threshold sp) c then Some (label, c) else None.
Proof. reflexivity. Qed.

Lemma model_votes_of sp conf pred group_u group_l yl yl0 gid :
  (forall gl j, group_l = Some gl -> (j < length gl)%nat -> nth j yl 0 = nth j yl0 0) ->
  votes_of (st_thr sp) (fun i => nth i conf 0%Q) pred group_u group_l yl0 gid
    (model_votes sp conf pred group_u group_l yl gid).
Proof.
  intros Hy. unfold model_votes.
  set (us := filter (fun i => above (st_thr sp) (nth i conf 0%Q)) _).
  exists (match group_l with None => [] | Some gl => filter (fun i => nth i gl 0 =? gid) (seq 0 (length gl)) end), us.
  split; [|split; [|split; [|split]]].
  - f_equal. destruct group_l as [gl|]; [|reflexivity]. apply map_ext_in. intros j Hj.
    apply filter_In in Hj. destruct Hj as [Hj _]. apply in_seq in Hj. rewrite (Hy gl j eq_refl) by lia. reflexivity.
  - destruct group_l; [apply StronglySorted_filter, seq_sorted|constructor].
  - apply StronglySorted_filter, StronglySorted_filter, seq_sorted.
  - intros j. destruct group_l as [gl|].
    + rewrite filter_In, in_seq, Z.eqb_eq. split.
      * intros [A B]. exists gl. split; [reflexivity|]. split; [lia|exact B].
      * intros (gl' & [= <-] & A & B). split; [lia|exact B].
    + split; [intros []|]. intros (gl' & A & _). discriminate.
  - intros i. unfold us. rewrite !filter_In, in_seq, Z.eqb_eq, above_meets. cbn. split.
    + intros ((A & B) & C). split; [lia|]. split; assumption.
    + intros (A & B & C). split; [split; [lia|exact B]|exact C].
Qed.

Lemma votes_of_unique thr conf pred gu gl yl g v1 v2 :
  votes_of thr conf pred gu gl yl g v1 -> votes_of thr conf pred gu gl yl g v2 -> v1 = v2.
Proof.
  intros (l1 & u1 & -> & A1 & B1 & C1 & D1) (l2 & u2 & -> & A2 & B2 & C2 & D2).
  assert (l1 = l2) by (apply sorted_ext; auto; intros x; rewrite C1, C2; tauto).
  assert (u1 = u2) by (apply sorted_ext; auto; intros x; rewrite D1, D2; tauto).
  subst. reflexivity.
Qed.

Lemma decides_parts (votes : list (Z * Q)) l c : majority l (map fst votes) ->
  (c * inject_Z (Z.of_nat (count_occ Z.eq_dec (map fst votes) l)) ==
     fold_right Qplus 0 (map snd (filter (fun v => if Z.eq_dec (fst v) l then true else false) votes)))%Q <->
  (c == Qmean (map snd (filter (fun v => fst v =? l) votes)))%Q.
Proof.
  intros M. rewrite filter_dec_eqb. unfold Qmean, lenZ. rewrite map_length, filter_count_fst.
  assert (P : (0 < inject_Z (Z.of_nat (count_occ Z.eq_dec (map fst votes) l)))%Q).
  { change 0%Q with (inject_Z 0). rewrite <- Zlt_Qlt. destruct M as (I & _).
    apply (count_occ_In Z.eq_dec) in I. lia. }
  set (n := inject_Z _) in *. fold (Qsum (map snd (filter (fun v : Z * Q => fst v =? l) votes))).
  set (s := Qsum _). split; intros H.
  - rewrite <- H. field. lra.
  - rewrite H. field. lra.
Qed.

Lemma fraction_parts (votes : list (Z * Q)) f l : votes <> [] ->
  (Qle_bool f (ratio (countZ l (map fst votes)) (lenZ votes)) = true <->
   (f * inject_Z (Z.of_nat (length votes)) <= inject_Z (Z.of_nat (count_occ Z.eq_dec (map fst votes) l)))%Q).
Proof.
  intros NE. rewrite Qle_bool_iff. unfold ratio, lenZ, countZ.
  assert (P : (0 < inject_Z (Z.of_nat (length votes)))%Q).
  { change 0%Q with (inject_Z 0). rewrite <- Zlt_Qlt. destruct votes; [congruence|]. cbn [length]. lia. }
  set (n := inject_Z (Z.of_nat (length votes))) in *. set (k := inject_Z _). split; intros H.
  - setoid_replace k with (k / n * n)%Q by (field; lra). apply Qmult_le_compat_r; lra.
  - apply Qle_shift_div_l; assumption.
Qed.

Lemma group_verdict_spec sp conf pred group_u group_l yl yl0 gid :
  1 <= st_min_count sp ->
  (forall gl j, group_l = Some gl -> (j < length gl)%nat -> nth j yl 0 = nth j yl0 0) ->
  forall l c,
  (exists votes, votes_of (st_thr sp) (fun i => nth i conf 0%Q) pred group_u group_l yl0 gid votes /\
     group_decides (st_min_count sp) (st_min_fraction sp) (group_threshold sp) votes l c) <->
  (exists c', group_verdict sp conf pred group_u group_l yl gid = Some (l, c') /\ (c == c')%Q).
Proof.
  intros Hc Hy l c. rewrite group_verdict_eq. cbv zeta.
  pose proof (model_votes_of sp conf pred group_u group_l yl yl0 gid Hy) as V.
  set (votes := model_votes sp conf pred group_u group_l yl gid) in *.
  destruct (lenZ votes <? st_min_count sp) eqn:E1.
  { split; [|intros (? & ? & _); discriminate]. intros (v & V' & A & _). exfalso.
    rewrite <- (votes_of_unique _ _ _ _ _ _ _ _ _ V V') in A. unfold lenZ in E1. lia. }
  assert (NE : votes <> []). { intros E. rewrite E in E1. cbn in E1. lia. }
  assert (Mj : majority (major_vote (map fst votes)) (map fst votes)).
  { apply major_vote_majority. intros E. apply map_eq_nil in E. contradiction. }
  set (label := major_vote (map fst votes)) in *.
  assert (Lift : forall l' c', (exists v, votes_of (st_thr sp) (fun i => nth i conf 0%Q) pred group_u group_l yl0 gid v /\
     group_decides (st_min_count sp) (st_min_fraction sp) (group_threshold sp) v l' c') <->
     l' = label /\ Qle_bool (st_min_fraction sp) (ratio (countZ label (map fst votes)) (lenZ votes)) = true /\
     (c' == Qmean (map snd (filter (fun v => (fst v =? label)%Z) votes)))%Q /\ meets (group_threshold sp) c').
  { intros l' c'. split.
    - intros (v & V' & A & B & C & D & F). rewrite <- (votes_of_unique _ _ _ _ _ _ _ _ _ V V') in *.
      assert (l' = label) by (apply (majority_unique (map fst votes)); assumption). subst l'.
      split; [reflexivity|]. split; [apply fraction_parts; assumption|]. split; [|exact F].
      apply decides_parts; assumption.
    - intros (-> & B & C & D). exists votes. split; [exact V|]. split; [unfold lenZ in E1; lia|].
      split; [exact Mj|]. split; [apply fraction_parts; assumption|]. split; [apply decides_parts; assumption|exact D]. }
  rewrite Lift. clear Lift.
  destruct (Qle_bool (st_min_fraction sp) (ratio (countZ label (map fst votes)) (lenZ votes))) eqn:E2; cbn [negb];
    [|split; [intros (_ & ? & _); discriminate|intros (? & ? & _); discriminate]].
  set (cm := Qmean (map snd (filter (fun v => fst v =? label) votes))).
  assert (Eq : forall x, (x == cm)%Q -> meets (group_threshold sp) x <-> meets (group_threshold sp) cm).
  { intros x Hx. unfold meets. destruct (group_threshold sp); [rewrite Hx|]; tauto. }
  destruct (above (group_threshold sp) cm) eqn:E3.
  - apply above_meets in E3. split.
    + intros (-> & _ & H & _). exists cm. split; [reflexivity|exact H].
    + intros (c' & [= <- <-] & H). split; [reflexivity|]. split; [reflexivity|]. split; [exact H|]. now apply Eq.
  - split.
    + intros (-> & _ & H & D). exfalso. apply Eq in D; [|exact H]. apply above_meets in D. congruence.
    + intros (c' & ? & _). discriminate.
Qed.

(* ----- collecting the candidates ----- *)
Lemma is_candidate_In cs i : is_candidate cs i = true <-> In i (map fst cs).
Proof. apply memN_In. Qed.

Lemma add_fold_spec (v : Z * Q) L : forall cs, NoDup (map fst cs) -> NoDup L ->
  let r := fold_left (fun acc i => if is_candidate acc i then acc else acc ++ [(i, v)]) L cs in
  NoDup (map fst r) /\
  forall j w, In (j, w) r <-> In (j, w) cs \/ (In j L /\ ~ In j (map fst cs) /\ w = v).
Proof.
  induction L as [|i L IH]; intros cs ND NL; cbn [fold_left].
  - split; [exact ND|]. intros j w. split; [now left|]. intros [H|([] & _)]. exact H.
  - inversion NL as [|? ? N1 N2]; subst. destruct (is_candidate cs i) eqn:E.
    + apply is_candidate_In in E. destruct (IH cs ND N2) as [A B]. split; [exact A|]. intros j w. rewrite B. split.
      * intros [H|(H1 & H2 & H3)]; [now left|right]. split; [now right|]. auto.
      * intros [H|([->|H1] & H2 & H3)]; [now left|contradiction|right; auto].
    + assert (Hn : ~ In i (map fst cs)). { intros H. apply is_candidate_In in H. congruence. }
      assert (ND' : NoDup (map fst (cs ++ [(i, v)]))).
      { rewrite map_app. apply NoDup_app_iff. split; [exact ND|]. split; [repeat constructor; intros []|].
        intros x Hx [<-|[]]. contradiction. }
      destruct (IH _ ND' N2) as [A B]. split; [exact A|]. intros j w. rewrite B, in_app_iff, map_app, in_app_iff. cbn. split.
      * intros [[H|[H|[]]]|(H1 & H2 & H3)]; [now left| |right].
        -- injection H as <- <-. right. auto.
        -- split; [now right|]. split; [tauto|exact H3].
      * intros [H|([<-|H1] & H2 & H3)]; [left; now left|left; right; left; congruence|].
        right. split; [exact H1|]. split; [|exact H3]. intros [H|[<-|[]]]; [contradiction|contradiction].
Qed.

Lemma collect_spec verdict (gu : list Z) G : forall cs, NoDup (map fst cs) -> NoDup G ->
  (forall j, In j (map fst cs) -> (j < length gu)%nat) ->
  let r := fold_left (fun acc gid => match verdict gid with None => acc | Some v => add_members gu gid v acc end) G cs in
  NoDup (map fst r) /\
  (forall j w, In (j, w) r <-> In (j, w) cs \/
     (In (nth j gu 0) G /\ (j < length gu)%nat /\ ~ In j (map fst cs) /\ verdict (nth j gu 0) = Some w)).
Proof.
  induction G as [|g G IH]; intros cs ND NG R; cbn [fold_left].
  - split; [exact ND|]. intros j w. split; [now left|]. intros [H|([] & _)]. exact H.
  - inversion NG as [|? ? N1 N2]; subst. destruct (verdict g) as [v|] eqn:Ev.
    + set (L := filter (fun i => nth i gu 0 =? g) (seq 0 (length gu))).
      assert (HL : forall j, In j L <-> (j < length gu)%nat /\ nth j gu 0 = g).
      { intros j. unfold L. rewrite filter_In, in_seq, Z.eqb_eq. lia. }
      assert (AB : NoDup (map fst (add_members gu g v cs)) /\ forall j w, In (j, w) (add_members gu g v cs) <->
        In (j, w) cs \/ (In j L /\ ~ In j (map fst cs) /\ w = v)) by exact (add_fold_spec v L cs ND (filter_seq_NoDup _ _ _)).
      set (cs' := add_members gu g v cs) in *. destruct AB as [A B].
      assert (R' : forall j, In j (map fst cs') -> (j < length gu)%nat).
      { intros j Hj. apply in_map_iff in Hj. destruct Hj as ([j' w] & E & Hj). cbn in E. subst j'.
        apply B in Hj. destruct Hj as [Hj|(Hj & _)]; [apply R, in_map_iff; exists (j, w); auto|now apply HL]. }
      destruct (IH cs' A N2 R') as [C D]. split; [exact C|].
      assert (F : forall j, In j (map fst cs') <-> In j (map fst cs) \/ (In j L /\ ~ In j (map fst cs))).
      { intros j. rewrite !in_map_iff. split.
        - intros ([j' w] & E & Hj). cbn in E. subst j'. apply B in Hj. destruct Hj as [Hj|(H1 & H2 & _)].
          + left. exists (j, w). auto.
          + right. split; [exact H1|]. rewrite <- in_map_iff. exact H2.
        - intros [([j' w] & E & Hj)|(H1 & H2)].
          + cbn in E. subst j'. exists (j, w). split; [reflexivity|]. apply B. now left.
          + exists (j, v). split; [reflexivity|]. apply B. right. rewrite in_map_iff. auto. }
      intros j w. rewrite D, B, F. split.
      * intros [[H|(H1 & H2 & ->)]|(H1 & H2 & H3 & H4)]; [now left| |].
        -- apply HL in H1. destruct H1 as [H1 E]. right. rewrite E. split; [now left|]. auto.
        -- right. split; [now right|]. split; [exact H2|]. split; [tauto|exact H4].
      * intros [H|([Hg|H1] & H2 & H3 & H4)]; [left; now left| |].
        -- left. right. split; [apply HL; auto|]. split; [exact H3|]. rewrite <- Hg in H4. congruence.
        -- right. split; [exact H1|]. split; [exact H2|]. split; [|exact H4].
           intros [H|(H & _)]; [contradiction|]. apply HL in H. destruct H as [_ H]. rewrite H in H1. contradiction.
    + destruct (IH cs ND N2 R) as [C D]. split; [exact C|]. intros j w. rewrite D. split.
      * intros [H|(H1 & H2)]; [now left|right]. split; [now right|exact H2].
      * intros [H|([Hg|H1] & H2 & H3 & H4)]; [now left| |right; auto]. rewrite <- Hg in H4. congruence.
Qed.

(* ----- sorting by confidence ----- *)
Definition key (c : candidate) : Q := snd (snd c).

Lemma insert_desc_perm x l : Permutation (insert_desc x l) (x :: l).
Proof.
  induction l as [|y l IH]; cbn; [reflexivity|]. destruct (Qle_bool _ _); [reflexivity|].
  rewrite IH. apply perm_swap.
Qed.

Lemma sort_desc_perm l : Permutation (sort_desc l) l.
Proof. induction l as [|x l IH]; [reflexivity|]. cbn. rewrite insert_desc_perm, IH. reflexivity. Qed.

Lemma insert_desc_sorted x l : StronglySorted (fun a b => (key b <= key a)%Q) l ->
  StronglySorted (fun a b => (key b <= key a)%Q) (insert_desc x l).
Proof.
  induction 1 as [|y l S IH F]; cbn; [repeat constructor|].
  destruct (Qle_bool (snd (snd y)) (snd (snd x))) eqn:E.
  - apply Qle_bool_iff in E. constructor; [constructor; assumption|]. constructor; [exact E|].
    rewrite Forall_forall in *. intros z Hz. specialize (F z Hz). unfold key in *. lra.
  - assert (~ (snd (snd y) <= snd (snd x))%Q) by (rewrite <- Qle_bool_iff; congruence).
    constructor; [exact IH|]. rewrite Forall_forall in *. intros z Hz.
    apply (Permutation_in _ (insert_desc_perm x l)) in Hz. destruct Hz as [<-|Hz]; [unfold key; lra|auto].
Qed.

Lemma sort_desc_sorted l : StronglySorted (fun a b => (key b <= key a)%Q) (sort_desc l).
Proof. induction l; cbn; [constructor|]. now apply insert_desc_sorted. Qed.

Lemma sorted_split {A} (R : A -> A -> Prop) k l : StronglySorted R l ->
  forall x y, In x (firstn k l) -> In y (skipn k l) -> R x y.
Proof.
  intros S. revert k. induction S as [|a l S IH F]; intros [|k] x y Hx Hy; cbn in *; try contradiction.
  rewrite Forall_forall in F. destruct Hx as [<-|Hx]; [apply F; rewrite <- (firstn_skipn k l); apply in_or_app; now right|].
  now apply (IH k).
Qed.

Lemma nth_candidate (l : list candidate) : forall p, (p < length l)%nat ->
  nth p l (0%nat, (0, 0%Q)) =
  (nth p (map fst l) 0%nat, (nth p (map (fun it => fst (snd it)) l) 0, nth p (map key l) 0%Q)).
Proof.
  induction l as [|[a [b c]] l IH]; intros [|p] H; cbn [length] in H; try lia; [reflexivity|].
  cbn [nth map]. apply IH. lia.
Qed.

(* ----- select_candidates ----- *)
Lemma select_candidates_spec sp scs pred group_u group_l yl yl0 sel labels :
  1 <= st_min_count sp -> (forall m, st_max_new sp = Some m -> 0 <= m) ->
  (forall gl j, group_l = Some gl -> (j < length gl)%nat -> nth j yl 0 = nth j yl0 0) ->
  (forall gu, group_u = Some gu -> length gu = length scs) ->
  select_candidates sp scs pred group_u group_l yl = Ok (sel, labels) ->
  self_training_selection (st_thr sp) (st_max_new sp) (st_min_count sp) (st_min_fraction sp)
    (group_threshold sp) scs pred group_u group_l yl0 sel labels.
Proof.
  intros Hc Hm Hy Hg H. unfold select_candidates in H.
  destruct (row_maxima scs) as [conf|] eqn:Ec; cbn [bind] in H; [|discriminate].
  destruct (row_maxima_spec _ _ Ec) as [L S].
  set (direct := filter (fun i => above (st_thr sp) (nth i conf 0%Q)) (seq 0 (length conf))) in H.
  set (cands0 := map (fun i => (i, (nth i pred 0, nth i conf 0%Q))) direct) in H.
  set (cands := match group_u with
               | None => cands0
               | Some gu => fold_left (fun acc gid =>
                     match group_verdict sp conf pred gu group_l yl gid with
                     | None => acc | Some v => add_members gu gid v acc end) (uniqueZ gu) cands0
               end) in H.
  cbv zeta in H.
  assert (Hd : forall i, In i direct <-> (i < length scs)%nat /\ meets (st_thr sp) (nth i conf 0%Q)).
  { intros i. unfold direct. rewrite filter_In, in_seq, above_meets. cbn. lia || (split; intros [A B]; (split; [lia|exact B])). }
  assert (F0 : map fst cands0 = direct).
  { unfold cands0. rewrite map_map. cbn. apply map_id. }
  assert (ND0 : NoDup (map fst cands0)) by (rewrite F0; apply filter_seq_NoDup).
  assert (I0 : forall j w, In (j, w) cands0 <-> In j direct /\ w = (nth j pred 0, nth j conf 0%Q)).
  { intros j w. unfold cands0. rewrite in_map_iff. split.
    - intros (i & E & Hi). injection E as <- <-. auto.
    - intros (Hi & ->). exists j. auto. }
  assert (CS : NoDup (map fst cands) /\ forall j w, In (j, w) cands <->
     In (j, w) cands0 \/ exists gu, group_u = Some gu /\ (j < length gu)%nat /\ ~ In j direct /\
        group_verdict sp conf pred gu group_l yl (nth j gu 0) = Some w).
  { unfold cands. destruct group_u as [gu|].
    - destruct (collect_spec (group_verdict sp conf pred gu group_l yl) gu (uniqueZ gu) cands0 ND0 (uniqueZ_NoDup gu)) as [A B].
      { intros j Hj. rewrite F0 in Hj. apply Hd in Hj. rewrite (Hg gu eq_refl). tauto. }
      split; [exact A|]. intros j w. cbv zeta in B. rewrite B, F0. split.
      + intros [H0|(H1 & H2 & H3 & H4)]; [now left|right]. exists gu. auto.
      + intros [H0|(gu' & [= <-] & H2 & H3 & H4)]; [now left|right]. split; [|auto].
        apply uniqueZ_In, nth_In. exact H2.
    - split; [exact ND0|]. intros j w. split; [now left|]. intros [H0|(gu' & A & _)]; [exact H0|discriminate]. }
  destruct CS as [NDc Ic].
  set (items := match st_max_new sp with
               | Some m => if m <? lenZ (sort_desc cands) then py_take m (sort_desc cands) else sort_desc cands
               | None => sort_desc cands end) in H.
  injection H as <- <-.
  assert (Split : exists k, items = firstn k (sort_desc cands) /\
     (forall m, st_max_new sp = Some m -> lenZ items <= m) /\
     (skipn k (sort_desc cands) <> [] -> exists m, st_max_new sp = Some m /\ lenZ items = m)).
  { unfold items. destruct (st_max_new sp) as [m|] eqn:Em.
    - specialize (Hm m eq_refl). destruct (m <? lenZ (sort_desc cands)) eqn:E.
      + exists (Z.to_nat m). rewrite py_take_nonneg by exact Hm. unfold lenZ in *.
        assert (Lk : length (firstn (Z.to_nat m) (sort_desc cands)) = Z.to_nat m) by (apply firstn_length_le; lia).
        split; [reflexivity|]. rewrite Lk. split; [intros m' [= <-]; lia|]. intros _. exists m. split; [reflexivity|lia].
      + exists (length (sort_desc cands)). rewrite firstn_all. split; [reflexivity|].
        split; [intros m' [= <-]; lia|]. rewrite skipn_all. congruence.
    - exists (length (sort_desc cands)). rewrite firstn_all, skipn_all. split; [reflexivity|].
      split; [discriminate|congruence]. }
  destruct Split as (k & Ek & Cap & Full). clearbody items. subst items.
  set (items := firstn k (sort_desc cands)) in *.
  assert (Pm : Permutation (items ++ skipn k (sort_desc cands)) cands).
  { unfold items. rewrite firstn_skipn. apply sort_desc_perm. }
  assert (NDa : NoDup (map fst (items ++ skipn k (sort_desc cands)))).
  { apply (Permutation_NoDup (Permutation_sym (Permutation_map fst Pm))). exact NDc. }
  rewrite map_app in NDa. apply NoDup_app_iff in NDa. destruct NDa as (N1 & _ & N3).
  (* candidates are exactly the rows that may be labelled *)
  assert (May1 : forall j l c, In (j, (l, c)) cands -> (j < length scs)%nat /\
     may_label (st_thr sp) (st_min_count sp) (st_min_fraction sp) (group_threshold sp)
       (fun i => nth i conf 0%Q) pred group_u group_l yl0 j l c).
  { intros j l c Hj. apply Ic in Hj. destruct Hj as [Hj|(gu & Eg & Hl & Hn & Hv)].
    - apply I0 in Hj. destruct Hj as [Hj E]. injection E as -> ->. apply Hd in Hj. split; [tauto|]. left.
      split; [tauto|]. auto.
    - assert (Hl' : (j < length scs)%nat) by (rewrite <- (Hg gu Eg); exact Hl). split; [exact Hl'|]. right.
      split; [intros Hme; apply Hn, Hd; auto|].
      destruct (proj2 (group_verdict_spec sp conf pred gu group_l yl yl0 (nth j gu 0) Hc Hy l c)) as (votes & V & D).
      { exists c. split; [exact Hv|reflexivity]. }
      exists gu, votes. auto. }
  assert (May2 : forall j l c, (j < length scs)%nat ->
     may_label (st_thr sp) (st_min_count sp) (st_min_fraction sp) (group_threshold sp)
       (fun i => nth i conf 0%Q) pred group_u group_l yl0 j l c ->
     exists c', In (j, (l, c')) cands /\ (c == c')%Q).
  { intros j l c Hj [(A & -> & ->)|(A & gu & votes & Eg & V & D)].
    - exists (nth j conf 0%Q). split; [|reflexivity]. apply Ic. left. apply I0. split; [apply Hd; auto|reflexivity].
    - destruct (proj1 (group_verdict_spec sp conf pred gu group_l yl yl0 (nth j gu 0) Hc Hy l c)) as (c' & Hv & E).
      { exists votes. auto. }
      exists c'. split; [|exact E]. apply Ic. right. exists gu. split; [exact Eg|].
      split; [rewrite (Hg gu Eg); exact Hj|]. split; [|exact Hv]. intros Hd'. apply Hd in Hd'. tauto. }
  exists (fun i => nth i conf 0%Q), (map key items).
  split; [exact S|]. rewrite !map_length. split; [reflexivity|]. split; [reflexivity|]. split; [exact N1|].
  assert (Nth : forall p, (p < length items)%nat ->
    nth p items (0%nat, (0, 0%Q)) = (nth p (map fst items) 0%nat, (nth p (map (fun it => fst (snd it)) items) 0, nth p (map key items) 0%Q))).
  { apply nth_candidate. }
  split.
  - intros p Hp. apply May1. rewrite <- Nth by exact Hp.
    apply (Permutation_in _ Pm). apply in_or_app. left. apply nth_In. exact Hp.
  - split; [exact Cap|]. intros j l c Hj Hmay Hn.
    destruct (May2 j l c Hj Hmay) as (c' & Hin & Ec').
    assert (Hr : In (j, (l, c')) (skipn k (sort_desc cands))).
    { apply (Permutation_in _ (Permutation_sym Pm)) in Hin. apply in_app_or in Hin. destruct Hin as [Hin|Hin]; [|exact Hin].
      exfalso. apply Hn. apply in_map_iff. exists (j, (l, c')). auto. }
    destruct Full as (m & Em & El). { intros E. rewrite E in Hr. destruct Hr. }
    exists m. split; [exact Em|]. split; [exact El|]. intros p Hp.
    rewrite (nth_indep (map key items) 0%Q (key (0%nat, (0, 0%Q)))) by (rewrite map_length; exact Hp).
    rewrite (map_nth key), Ec'.
    pose proof (sorted_split _ k _ (sort_desc_sorted cands) (nth p items (0%nat, (0, 0%Q))) (j, (l, c'))) as Q.
    apply Q; [apply nth_In; exact Hp|exact Hr].
Qed.

(* ----- the self-training loop ----- *)
Section SelfTraining.
Context {X M : Type}.
Variable d : X.
Variable fit : nat -> list X -> list Z -> M.
Variable scores : M -> list X -> list (list Q).
Variable predict : M -> list X -> list Z.
Variables (Xl0 : list X) (yl0 : list Z) (Xu0 : list X).
Variable sp : st_spec.
Variable group_l : option (list Z).
Hypothesis scores_length : forall m rs, length (scores m rs) = length rs.
Hypothesis min_count_pos : 1 <= st_min_count sp.
Hypothesis max_new_nonneg : forall m, st_max_new sp = Some m -> 0 <= m.
Hypothesis group_l_len : forall gl, group_l = Some gl -> (length gl <= length yl0)%nat.

Notation round gu bs k := (self_training_round d fit scores predict Xl0 yl0 Xu0 bs (st_thr sp) (st_max_new sp)
  (st_min_new sp) (st_min_count sp) (st_min_fraction sp) (group_threshold sp) gu group_l k).

Lemma st_round_prefix gu bs bs' k : (k < length bs)%nat -> round gu bs k -> round gu (bs ++ bs') k.
Proof.
  intros H. unfold self_training_round. rewrite app_nth1 by exact H.
  rewrite model_at_prefix, scores_at_prefix, pool_positions_prefix, pool_after_prefix by lia. tauto.
Qed.

Lemma self_training_loop_spec gu0 fuel :
  (forall g, gu0 = Some g -> length g = length Xu0) ->
  forall bs done Xl yl Xu gu r,
  inv d Xl0 yl0 Xu0 bs done Xl yl Xu ->
  gu = option_map (fun g => at_positions 0 g (pool_positions Xu0 bs (length bs))) gu0 ->
  (forall k, (k < length bs)%nat -> round gu0 bs k) ->
  self_training_loop d fit scores predict sp group_l fuel done Xl yl Xu gu = Ok r ->
  exists bs', let all := bs ++ bs' in
    moves_rows_once d (length bs + fuel) Xl0 yl0 Xu0 all (calls r) (leftover r) /\
    (forall k, (k < length all)%nat -> round gu0 all k) /\
    self_training_stop d fit scores predict Xl0 yl0 Xu0 all (length bs + fuel) (st_thr sp) (st_max_new sp)
      (st_min_new sp) (st_min_count sp) (st_min_fraction sp) (group_threshold sp) gu0 group_l.
Proof.
  intros Hgu. induction fuel as [|f IH]; intros bs done Xl yl Xu gu r I Eg Hr H; cbn [self_training_loop] in H.
  - injection H as <-. exists []. rewrite app_nil_r. cbn [calls leftover]. split; [|split; [exact Hr|]].
    + apply inv_stop0; [exact I|lia].
    + left. lia.
  - assert (Em : fit (length done) Xl yl = model_at d fit Xl0 yl0 Xu0 bs (length bs)).
    { rewrite (inv_done_length _ _ _ _ _ _ _ _ _ I). unfold model_at. destruct I as (E & _). rewrite <- E. reflexivity. }
    pose proof (proj1 (proj2 I)) as EX.
    assert (Ey : forall gl j, group_l = Some gl -> (j < length gl)%nat -> nth j yl 0 = nth j yl0 0).
    { intros gl j Hgl Hj. destruct I as (E & _). pose proof (f_equal snd E) as E2. cbn in E2. rewrite E2.
      apply app_nth1. specialize (group_l_len gl Hgl). lia. }
    destruct Xu as [|x Xu'] eqn:EXu.
    { injection H as <-. exists []. rewrite app_nil_r. cbn [calls leftover]. split; [|split; [exact Hr|]].
      - apply inv_stop1; [exact I|lia].
      - right. left. symmetry. exact EX. }
    rewrite <- EXu in *.
    destruct (select_candidates sp (scores (fit (length done) Xl yl) Xu) (predict (fit (length done) Xl yl) Xu) gu group_l yl)
      as [[idx labels]|] eqn:Es; cbn [bind] in H; [|discriminate].
    assert (Lgu : forall g, gu = Some g -> length g = length (scores (fit (length done) Xl yl) Xu)).
    { intros g Hg. rewrite scores_length, (pool_length _ _ _ _ _ _ _ _ _ I). rewrite Eg in Hg.
      destruct gu0 as [g0|]; [|discriminate]. injection Hg as <-. apply at_positions_length. }
    pose proof (select_candidates_spec sp _ _ gu group_l yl yl0 idx labels min_count_pos max_new_nonneg Ey Lgu Es) as Sel.
    assert (Esc : scores (fit (length done) Xl yl) Xu = scores_at d fit scores Xl0 yl0 Xu0 bs (length bs)).
    { unfold scores_at. rewrite Em, EX at 1. reflexivity. }
    assert (Epr : predict (fit (length done) Xl yl) Xu = predict (model_at d fit Xl0 yl0 Xu0 bs (length bs)) (pool_after d Xu0 bs (length bs))).
    { rewrite Em, EX at 1. reflexivity. }
    assert (Sel' := Sel). rewrite Esc, Epr, Eg in Sel'.
    destruct (lenZ idx <? st_min_new sp) eqn:El.
    + injection H as <-. exists []. rewrite app_nil_r. cbn [calls leftover]. split; [|split; [exact Hr|]].
      * apply inv_stop1; [exact I|lia].
      * right. right. exists idx, labels. split; [exact Sel'|]. unfold lenZ in El. lia.
    + destruct Sel as (conf & cs & S1 & S2 & S3 & S4 & S5 & _).
      assert (Rg : forall p, In p idx -> (p < length Xu)%nat).
      { intros p Hp. apply (In_nth _ _ 0%nat) in Hp. destruct Hp as (q & Lq & <-).
        destruct (S5 q Lq) as [A _]. rewrite scores_length in A. exact A. }
      destruct (inv_step d Xl0 yl0 Xu0 bs done Xl yl Xu idx labels I S4 Rg (eq_sym S2)) as [I' Er].
      set (b := combine _ _) in I'.
      assert (Lb : length (rows 0%nat (pool_positions Xu0 bs (length bs)) idx) = length labels)
        by now rewrite rows_length.
      assert (Fb : map fst b = rows 0%nat (pool_positions Xu0 bs (length bs)) idx) by (apply combine_fst; exact Lb).
      assert (Sb : map snd b = labels) by (apply combine_snd; exact Lb).
      assert (Hr' : forall k, (k < length (bs ++ [b]))%nat -> round gu0 (bs ++ [b]) k).
      { intros k Hk. rewrite app_length in Hk. cbn in Hk.
        destruct (Nat.eq_dec k (length bs)) as [->|Hn]; [|apply st_round_prefix; [lia|apply Hr; lia]].
        unfold self_training_round. rewrite app_nth2, Nat.sub_diag by lia. cbn [nth].
        rewrite model_at_prefix, scores_at_prefix, pool_positions_prefix, pool_after_prefix by lia.
        split.
        - rewrite <- (map_length fst b), Fb, rows_length. unfold lenZ in El. lia.
        - exists idx. rewrite Sb. split; [exact Sel'|exact Fb]. }
      assert (Eg' : option_map (fun g => drop_rows 0 g idx) gu =
        option_map (fun g => at_positions 0 g (pool_positions Xu0 (bs ++ [b]) (length (bs ++ [b])))) gu0).
      { rewrite Eg. destruct gu0 as [g0|]; [|reflexivity]. cbn [option_map]. f_equal.
        unfold pool_positions. rewrite !firstn_all. rewrite taken_rows_app.
        assert (Tb : taken_rows [b] = rows 0%nat (pool_positions Xu0 bs (length bs)) idx).
        { unfold taken_rows. cbn [concat]. rewrite app_nil_r. exact Fb. }
        rewrite Tb. unfold pool_positions. rewrite firstn_all.
        rewrite <- (Hgu g0 eq_refl). apply pool_step; [exact S4|].
        intros p Hp. specialize (Rg p Hp). rewrite (pool_length _ _ _ _ _ _ _ _ _ I) in Rg.
        unfold pool_positions in Rg. rewrite firstn_all in Rg. rewrite (Hgu g0 eq_refl). exact Rg. }
      destruct (IH _ _ _ _ _ _ _ I' Eg' Hr' H) as (bs' & A & B & C).
      exists (b :: bs'). rewrite <- app_assoc in A, B, C. cbn [app] in A, B, C.
      rewrite app_length in A, C. cbn [length] in A, C.
      replace (length bs + 1 + f)%nat with (length bs + S f)%nat in A, C by lia.
      split; [exact A|]. split; [exact B|exact C].
Qed.
End SelfTraining.
