(* Proofs about the lazy random walk. *)
From Coq Require Import QArith Qminmax Qabs Lqa ZifyBool ZifyNat.
From Verif Require Import Prelude ListFacts SampleServiceProofs QFacts TransModel TransSpec TransProofs TransSolveProofs WalkModel WalkSpec.
Local Open Scope Q_scope.
Local Open Scope list_scope.

(* ---- the affinity matrix *)
Lemma affinity_entry E n i j : (i < n)%nat -> (j < n)%nat -> entry (affinity E n) i j = link E i j.
Proof. intros Hi Hj. unfold affinity. rewrite entry_tabulate by assumption. unfold link. rewrite !adjacency_entry by assumption. reflexivity. Qed.
Lemma affinity_row E n i : (i < n)%nat -> row_sum (affinity E n) i = links n E i.
Proof.
  intros Hi. unfold row_sum, affinity. rewrite row_tabulate by exact Hi. unfold links. f_equal. apply map_ext_in. intros j Hj. apply in_seq in Hj.
  unfold link. rewrite !adjacency_entry by lia. reflexivity.
Qed.
Lemma link_nonneg E i j : (forall e, In e E -> 0 <= e_w e) -> 0 <= link E i j.
Proof. intros H. unfold link. destruct (Nat.eqb i j); [lra|]. pose proof (weight_nonneg E i j H). pose proof (weight_nonneg E j i H). lra. Qed.
Lemma isolated_spec E n : isolated (affinity E n) = true <-> has_isolated n E.
Proof.
  unfold isolated, has_isolated. rewrite existsb_exists. split.
  - intros (r & Hr & Hq). apply (In_nth _ _ []) in Hr as (i & Hi & <-). unfold affinity in Hi. rewrite (proj1 (shape_tabulate n n _)) in Hi. exists i. split; [exact Hi|].
    change (Qle_bool (row_sum (affinity E n) i) 0 = true) in Hq. rewrite affinity_row in Hq by exact Hi. apply Qle_bool_iff, Hq.
  - intros (i & Hi & Hq). exists (nth i (affinity E n) []). split; [apply nth_In; unfold affinity; rewrite (proj1 (shape_tabulate n n _)); exact Hi|].
    change (Qle_bool (row_sum (affinity E n) i) 0 = true). rewrite affinity_row by exact Hi. apply Qle_bool_iff, Hq.
Qed.

(* ---- the two classes *)
Lemma valid_masked y mask v : In v (filter (fun v => (v >=? 0)%Z) (masked mask y)) <-> shown_class y mask v.
Proof.
  rewrite filter_In. unfold shown_class. split.
  - intros [H H0]. assert (0 <= v)%Z by lia. split; [assumption|]. apply masked_shown; assumption.
  - intros [H0 H]. split; [apply masked_shown; assumption|lia].
Qed.
Lemma two_of_list (l : list Z) (P : Z -> Prop) a b : (forall v, In v l <-> P v) -> uniqueZ l = [a; b] -> exactly_two P a b.
Proof.
  intros HP Hu. split.
  - pose proof (uniqueZ_ascending l) as Ha. rewrite Hu in Ha. inversion Ha as [|? ? ? Hx]; subst. inversion Hx; subst. assumption.
  - intros v. rewrite <- HP, <- (uniqueZ_In l), Hu. cbn. intuition.
Qed.
Lemma list_of_two (l : list Z) (P : Z -> Prop) a b : (forall v, In v l <-> P v) -> exactly_two P a b -> uniqueZ l = [a; b].
Proof.
  intros HP [Hab H]. pose proof (uniqueZ_ascending l) as Ha. pose proof (uniqueZ_NoDup l) as Hn.
  assert (Hin : forall v, In v (uniqueZ l) <-> v = a \/ v = b) by (intros v; rewrite uniqueZ_In, HP; apply H).
  destruct (uniqueZ l) as [|x [|x2 [|x3 r]]].
  - exfalso. apply (Hin a). auto.
  - exfalso. destruct (proj2 (Hin a) (or_introl eq_refl)) as [<-|[]]. destruct (proj2 (Hin b) (or_intror eq_refl)) as [<-|[]]. lia.
  - inversion Ha as [|? ? ? Hx]; subst. inversion Hx; subst. destruct (proj1 (Hin x) (or_introl eq_refl)); destruct (proj1 (Hin x2) (or_intror (or_introl eq_refl))); subst; try reflexivity; lia.
  - exfalso. assert (H1 := proj1 (Hin x) (or_introl eq_refl)). assert (H2 := proj1 (Hin x2) (or_intror (or_introl eq_refl))). assert (H3 := proj1 (Hin x3) (or_intror (or_intror (or_introl eq_refl)))).
    inversion Hn as [|? ? N1 Hn1]; subst. inversion Hn1 as [|? ? N2 Hn2]; subst. cbn in N1, N2. intuition congruence.
Qed.
Lemma binary_spec y mask a b : binary_classes y mask = Ok (a, b) <-> the_classes y mask a b.
Proof.
  unfold binary_classes, the_classes.
  assert (Hy : forall v, In v (filter (fun v => (v >=? 0)%Z) y) <-> (0 <= v)%Z /\ In v y) by (intros v; rewrite filter_In; intuition lia).
  destruct (lenZ (uniqueZ (filter (fun v => (v >=? 0)%Z) (masked mask y))) =? 2)%Z eqn:E2.
  - destruct (uniqueZ (filter (fun v => (v >=? 0)%Z) (masked mask y))) as [|x [|x2 [|x3 r]]] eqn:Eu; try (exfalso; unfold lenZ in E2; cbn [List.length] in E2; lia).
    assert (H2 := two_of_list _ _ _ _ (valid_masked y mask) Eu). split.
    + intros [= <- <-]. left. exact H2.
    + intros [H|[H _]]; [|exfalso; apply H; eauto]. rewrite (list_of_two _ _ _ _ (valid_masked y mask) H) in Eu. injection Eu as <- <-. reflexivity.
  - assert (Hno : ~ exists a' b', exactly_two (shown_class y mask) a' b') by (intros (a' & b' & H); rewrite (list_of_two _ _ _ _ (valid_masked y mask) H) in E2; discriminate).
    split.
    + intros H. right. split; [exact Hno|]. destruct (uniqueZ (filter (fun v => (v >=? 0)%Z) y)) as [|x [|x2 [|x3 r]]] eqn:Eu; try discriminate. injection H as <- <-. exact (two_of_list _ _ _ _ Hy Eu).
    + intros [H|[_ H]]; [exfalso; apply Hno; eauto|]. rewrite (list_of_two _ _ _ _ Hy H). reflexivity.
Qed.
Lemma signed_nth a b y mask i : List.length mask = List.length y -> (i < List.length y)%nat -> nth i (signed_labels a b y mask) 0 = sign_of a b y mask i.
Proof.
  intros Hl Hi. unfold signed_labels. rewrite (nth_map_combine _ mask y i false (-1)%Z 0 Hl ltac:(lia)). cbn [fst snd]. unfold sign_of. reflexivity.
Qed.

(* ---- the maximum principle of a damped walk *)
Section Damped.
Variables (n : nat) (P : nat -> nat -> Q) (alpha : Q) (C : nat -> bool).
Hypothesis Halpha : 0 < alpha < 1.
Hypothesis Hpos : forall i j, (i < n)%nat -> (j < n)%nat -> 0 <= P i j.
Hypothesis Hone : forall i, (i < n)%nat -> Qsum (map (P i) (seq 0 n)) == 1.
Hypothesis Hclosed : forall i j, (i < n)%nat -> (j < n)%nat -> C i = true -> C j = false -> P i j == 0.
Variables (h t : nat -> Q).
Hypothesis Hfix : forall i, (i < n)%nat -> C i = true -> h i == t i + alpha * Qsum (map (fun j => P i j * h j) (seq 0 n)).
Lemma damped_nonpos : (forall i, (i < n)%nat -> C i = true -> t i <= 0) -> forall i, (i < n)%nat -> C i = true -> h i <= 0.
Proof using All.
  intros Ht i Hi HCi. destruct (argmin (fun i => - h i) (filter C (seq 0 n))) as (m & Hm & Hmin).
  { intros E. assert (H : In i (filter C (seq 0 n))) by (apply filter_In; split; [apply in_seq; lia|exact HCi]). rewrite E in H. destruct H. }
  apply filter_In in Hm as [Hm HCm]. apply in_seq in Hm.
  assert (Hle : h i <= h m) by (assert (H := Hmin i ltac:(apply filter_In; split; [apply in_seq; lia|exact HCi])); cbn in H; lra).
  assert (Hs : Qsum (map (fun j => P m j * h j) (seq 0 n)) <= h m).
  { assert (H1 : Qsum (map (fun j => P m j * h j) (seq 0 n)) <= Qsum (map (fun j => P m j * h m) (seq 0 n))).
    { apply Qsum_le. intros j Hj. apply in_seq in Hj. destruct (C j) eqn:HCj.
      - apply Qmult_le_lnn; [apply Hpos; lia|]. assert (H := Hmin j ltac:(apply filter_In; split; [apply in_seq; lia|exact HCj])). cbn in H. lra.
      - rewrite (Hclosed m j ltac:(lia) ltac:(lia) HCm HCj). lra. }
    rewrite Qsum_scale_r, (Hone m ltac:(lia)) in H1. lra. }
  assert (Hf := Hfix m ltac:(lia) HCm). assert (Htm := Ht m ltac:(lia) HCm). destruct (Qlt_le_dec 0 (h m)) as [Hlt|]; [|lra]. nra.
Qed.
Hypothesis Hneg : forall i, (i < n)%nat -> C i = true -> t i <= 0.
Lemma damped_step i j : (i < n)%nat -> C i = true -> (t i < 0 \/ ((j < n)%nat /\ 0 < P i j /\ h j < 0)) -> h i < 0.
Proof using All.
  intros Hi HCi Hor. assert (Hle := damped_nonpos Hneg). rewrite (Hfix i Hi HCi).
  assert (Hterm : forall m, In m (seq 0 n) -> P i m * h m <= 0).
  { intros m Hm. apply in_seq in Hm. destruct (C m) eqn:HCm; [|rewrite (Hclosed i m Hi ltac:(lia) HCi HCm); lra].
    assert (H1 := Hpos i m Hi ltac:(lia)). assert (H2 := Hle m ltac:(lia) HCm). nra. }
  assert (Hs : Qsum (map (fun m => P i m * h m) (seq 0 n)) <= 0) by (rewrite <- (Qsum_zero (fun _ => 0) (seq 0 n) ltac:(reflexivity)); apply Qsum_le, Hterm).
  assert (Hti := Hneg i Hi HCi). destruct Hor as [H|(Hj & Hp & Hh)]; [nra|].
  assert (Hs2 : Qsum (map (fun m => P i m * h m) (seq 0 n)) <= P i j * h j); [|assert (P i j * h j < 0) by nra; nra].
  assert (Hin : In j (seq 0 n)) by (apply in_seq; lia). revert Hin Hterm. clear. induction (seq 0 n) as [|a l IH]; intros Hin Hterm; [destruct Hin|]. cbn [map]. rewrite Qsum_cons.
  destruct Hin as [->|Hin].
  - assert (Qsum (map (fun m => P i m * h m) l) <= 0); [|lra]. rewrite <- (Qsum_zero (fun _ => 0) l ltac:(reflexivity)). apply Qsum_le. intros x Hx. apply Hterm. right. exact Hx.
  - assert (H1 := IH Hin (fun m Hm => Hterm m (or_intror Hm))). assert (H2 := Hterm a (or_introl eq_refl)). lra.
Qed.
End Damped.

(* ---- the walk, scaled by the roots of the total strengths *)
Section Walk.
Variables (root : Q -> Q) (n : nat) (E : list edge) (alpha : Q).
Hypothesis Halpha : 0 < alpha < 1.
Hypothesis Hw : forall e, In e E -> 0 <= e_w e.
Hypothesis Hiso : ~ has_isolated n E.
Hypothesis Hroot : exact_roots root n E.
Lemma links_pos i : (i < n)%nat -> 0 < links n E i.
Proof using All. intros Hi. apply Qnot_le_lt. intros H. apply Hiso. exists i. auto. Qed.
Lemma step_nonneg i j : (i < n)%nat -> 0 <= step_prob n E i j.
Proof using All. intros Hi. unfold step_prob. apply Qdiv_nonneg; [apply link_nonneg, Hw|apply links_pos, Hi]. Qed.
Lemma step_one i : (i < n)%nat -> Qsum (map (step_prob n E i) (seq 0 n)) == 1.
Proof using All.
  intros Hi. unfold step_prob. rewrite (Qsum_ext _ (fun j => link E i j * / links n E i)) by (intros; reflexivity). rewrite Qsum_scale_r. fold (links n E i).
  assert (H := links_pos i Hi). field. lra.
Qed.
Lemma step_closed C i j : closed_set n E C -> (i < n)%nat -> (j < n)%nat -> C i = true -> C j = false -> step_prob n E i j == 0.
Proof using All. intros HC Hi Hj H1 H2. unfold step_prob. rewrite (HC i j Hi Hj H1 H2). unfold Qdiv. ring. Qed.
Lemma walk_fix s f i : walk_solution root n E alpha s f -> (i < n)%nat ->
  f i / root (links n E i) == s i / root (links n E i) + alpha * Qsum (map (fun j => step_prob n E i j * (f j / root (links n E j))) (seq 0 n)).
Proof using All.
  intros Hs Hi. rewrite (Hs i Hi) at 1. destruct (Hroot i Hi) as [Hp Hq].
  transitivity (s i / root (links n E i) + alpha * (Qsum (map (fun j => link E i j / (root (links n E i) * root (links n E j)) * f j) (seq 0 n)) * / root (links n E i))); [field; lra|].
  rewrite <- Qsum_scale_r. apply Qplus_comp; [reflexivity|]. apply Qmult_comp; [reflexivity|]. apply Qsum_ext. intros j Hj. apply in_seq in Hj. destruct (Hroot j ltac:(lia)) as [Hpj _].
  unfold step_prob. assert (HL : 0 < links n E i) by (apply links_pos, Hi). setoid_replace (links n E i) with (root (links n E i) * root (links n E i)) at 3 by (symmetry; exact Hq). field. lra.
Qed.
Lemma div_root_le x i : (i < n)%nat -> (x / root (links n E i) <= 0 <-> x <= 0).
Proof using All.
  intros Hi. destruct (Hroot i Hi) as [Hp _]. assert (Hv : x / root (links n E i) * root (links n E i) == x) by (field; lra). split; intros H.
  - rewrite <- Hv. nra.
  - apply Qnot_lt_le. intros Hlt. nra.
Qed.
Lemma div_root_lt x i : (i < n)%nat -> (x / root (links n E i) < 0 <-> x < 0).
Proof using All.
  intros Hi. destruct (Hroot i Hi) as [Hp _]. assert (Hv : x / root (links n E i) * root (links n E i) == x) by (field; lra). split; intros H.
  - rewrite <- Hv. nra.
  - apply Qnot_le_lt. intros Hlt. nra.
Qed.
Lemma walk_nonpos C s f : closed_set n E C -> walk_solution root n E alpha s f -> (forall i, (i < n)%nat -> C i = true -> s i <= 0) ->
  forall i, (i < n)%nat -> C i = true -> f i <= 0.
Proof using All.
  intros HC Hs Hn i Hi HCi. apply (div_root_le (f i) i Hi).
  apply (damped_nonpos n (step_prob n E) alpha C Halpha (fun i j Hi _ => step_nonneg i j Hi) step_one (fun i j => step_closed C i j HC)
           (fun i => f i / root (links n E i)) (fun i => s i / root (links n E i))); auto.
  - intros m Hm _. apply walk_fix; assumption.
  - intros m Hm HCm. apply div_root_le; auto.
Qed.
Lemma walk_negative C s f : closed_set n E C -> walk_solution root n E alpha s f -> (forall i, (i < n)%nat -> C i = true -> s i <= 0) ->
  forall i j, joined n E i j -> C i = true -> s j < 0 -> f i < 0.
Proof using All.
  intros HC Hs Hn i j HJ. 
  pose proof (damped_step n (step_prob n E) alpha C Halpha (fun i j Hi _ => step_nonneg i j Hi) step_one (fun i j => step_closed C i j HC)
           (fun i => f i / root (links n E i)) (fun i => s i / root (links n E i)) (fun i Hi _ => walk_fix s f i Hs Hi) (fun i Hi HCi => proj2 (div_root_le (s i) i Hi) (Hn i Hi HCi))) as HD.
  induction HJ as [i Hi|i m j Hi Hm Hl HJ IH]; intros HCi Hsj.
  - apply (div_root_lt (f i) i Hi). apply (HD i O Hi HCi). left. apply div_root_lt; assumption.
  - assert (HCm : C m = true) by (destruct (C m) eqn:E0; [reflexivity|]; assert (H := HC i m Hi Hm HCi E0); lra).
    apply (div_root_lt (f i) i Hi). apply (HD i m Hi HCi). right. split; [exact Hm|]. split.
    + unfold step_prob. assert (HL := links_pos i Hi). apply Qlt_shift_div_l; lra.
    + apply div_root_lt; [exact Hm|]. apply IH; assumption.
Qed.
Lemma walk_scale s f c : walk_solution root n E alpha s f -> walk_solution root n E alpha (fun i => c * s i) (fun i => c * f i).
Proof using Type.
  intros Hs i Hi. rewrite (Hs i Hi) at 1. rewrite (Qsum_ext (fun j => link E i j / (root (links n E i) * root (links n E j)) * (c * f j)) (fun j => c * (link E i j / (root (links n E i) * root (links n E j)) * f j)) (seq 0 n)) by (intros; ring). rewrite Qsum_scale. ring.
Qed.
Lemma walk_minus s s' f g : walk_solution root n E alpha s f -> walk_solution root n E alpha s' g -> walk_solution root n E alpha (fun i => s i - s' i) (fun i => f i - g i).
Proof using Type.
  intros Hf Hg i Hi. rewrite (Hf i Hi), (Hg i Hi) at 1.
  rewrite (Qsum_ext (fun j => link E i j / (root (links n E i) * root (links n E j)) * (f j - g j)) (fun j => link E i j / (root (links n E i) * root (links n E j)) * f j - link E i j / (root (links n E i) * root (links n E j)) * g j) (seq 0 n)) by (intros; ring). rewrite Qsum_minus. ring.
Qed.
Lemma walk_nonneg C s f : closed_set n E C -> walk_solution root n E alpha s f -> (forall i, (i < n)%nat -> C i = true -> 0 <= s i) ->
  forall i, (i < n)%nat -> C i = true -> 0 <= f i.
Proof using All.
  intros HC Hs Hn i Hi HCi. assert (H := walk_nonpos C _ _ HC (walk_scale s f (- (1)) Hs)). cbn beta in H. assert (H1 := H ltac:(intros m Hm HCm; specialize (Hn m Hm HCm); lra) i Hi HCi). lra.
Qed.
Lemma all_closed : closed_set n E (fun _ => true). Proof using Type. intros i j _ _ _ H. discriminate. Qed.
Lemma walk_unique s f g : walk_solution root n E alpha s f -> walk_solution root n E alpha s g -> forall i, (i < n)%nat -> f i == g i.
Proof using All.
  intros Hf Hg i Hi. assert (Hd := walk_minus _ _ _ _ Hf Hg).
  assert (H1 := walk_nonpos _ _ _ all_closed Hd ltac:(intros; cbn beta; lra) i Hi eq_refl). assert (H2 := walk_nonneg _ _ _ all_closed Hd ltac:(intros; cbn beta; lra) i Hi eq_refl). cbn beta in H1, H2. lra.
Qed.
End Walk.

(* ---- the checks *)
Lemma validate_graph_iff n ei weight : (exists E, validate_graph n ei weight = Ok E) <-> valid_graph n ei weight.
Proof.
  split.
  - intros (E & H). destruct (validate_graph_ok _ _ _ _ H) as (Hn & _ & _ & Hl & _). split; [exact Hn|]. split.
    + unfold validate_graph in H. destruct (negb _); [discriminate|]. destruct (n <=? 0)%Z; [discriminate|]. destruct (existsb _ ei) eqn:E1; [discriminate|]. destruct (existsb (fun e => (fst e >=? n)%Z || (snd e >=? n)%Z) ei) eqn:E2; [discriminate|].
      intros e He. destruct ((fst e <? 0)%Z || (snd e <? 0)%Z) eqn:A1; [assert (existsb (fun e => (fst e <? 0)%Z || (snd e <? 0)%Z) ei = true) by (apply existsb_exists; eauto); congruence|].
      destruct ((fst e >=? n)%Z || (snd e >=? n)%Z) eqn:A2; [assert (existsb (fun e => (fst e >=? n)%Z || (snd e >=? n)%Z) ei = true) by (apply existsb_exists; eauto); congruence|]. lia.
    + destruct weight; [exact Hl|exact I].
  - intros (Hn & He & Hl). unfold validate_graph.
    destruct (Nat.eqb (List.length (match weight with None => map (fun _ => 1) ei | Some l => l end)) (List.length ei)) eqn:E0.
    2: { apply Nat.eqb_neq in E0. exfalso. apply E0. destruct weight; [exact Hl|apply map_length]. }
    cbn [negb]. destruct (n <=? 0)%Z eqn:E1; [lia|].
    destruct (existsb (fun e => (fst e <? 0)%Z || (snd e <? 0)%Z) ei) eqn:E2; [apply existsb_exists in E2 as (e & H1 & H2); specialize (He e H1); lia|].
    destruct (existsb (fun e => (fst e >=? n)%Z || (snd e >=? n)%Z) ei) eqn:E3; [apply existsb_exists in E3 as (e & H1 & H2); specialize (He e H1); lia|]. eauto.
Qed.
Lemma checked_ok n ei weight y mask E : checked n ei weight y mask = Ok E <->
  validate_graph n ei weight = Ok E /\ List.length y = Z.to_nat n /\ List.length mask = Z.to_nat n /\ (exists i, nth i mask false = true).
Proof.
  unfold checked. destruct (validate_graph n ei weight) as [E'|x] eqn:EG; cbn [bind]; [|split; [discriminate|intros (H & _); discriminate]].
  assert (Hn : (0 < n)%Z) by apply (validate_graph_ok _ _ _ _ EG). unfold lenZ.
  assert (Hex : existsb (fun b => b) mask = true <-> exists i, nth i mask false = true).
  { rewrite existsb_exists. split.
    - intros (b & Hb & ->). apply (In_nth _ _ false) in Hb as (i & _ & H). eauto.
    - intros (i & H). exists true. split; [|reflexivity]. destruct (Nat.lt_ge_cases i (List.length mask)) as [Hlt|Hge]; [rewrite <- H; apply nth_In, Hlt|rewrite nth_overflow in H by lia; discriminate]. }
  destruct (Z.of_nat (List.length y) =? n)%Z eqn:E1; cbn [negb]; [|split; [discriminate|intros (_ & H & _); lia]].
  destruct (Z.of_nat (List.length mask) =? n)%Z eqn:E2; cbn [negb]; [|split; [discriminate|intros (_ & _ & H & _); lia]].
  destruct (existsb (fun b => b) mask) eqn:E3; cbn [negb]; [|split; [discriminate|intros (_ & _ & _ & H); apply Hex in H; congruence]].
  split; [intros [= <-]; split; [reflexivity|]; split; [lia|]; split; [lia|]; apply Hex; reflexivity|intros ([= <-] & _); reflexivity].
Qed.

(* ---- lazy_random_walk *)
Section LazyProofs.
Variables (root : Q -> Q) (solve : mat -> mat -> option mat).
Lemma walk_matrix_shape alpha W n : shape n n (walk_matrix root alpha W n). Proof using Type. apply shape_tabulate. Qed.
Lemma walk_matrix_sum alpha E n (x : nat -> Q) i : (i < n)%nat ->
  Qsum (map (fun j => entry (walk_matrix root alpha (affinity E n) n) i j * x j) (seq 0 n)) ==
  x i - alpha * Qsum (map (fun j => (1 / root (links n E i)) * link E i j * (1 / root (links n E j)) * x j) (seq 0 n)).
Proof using Type.
  intros Hi. rewrite (Qsum_ext _ (fun j => (if Nat.eqb j i then 1 else 0) * x j - alpha * ((1 / root (links n E i)) * link E i j * (1 / root (links n E j)) * x j)) (seq 0 n)).
  - rewrite Qsum_minus, Qsum_scale, (sum_pick x i) by (try apply seq_NoDup; apply in_seq; lia). reflexivity.
  - intros j Hj. apply in_seq in Hj. unfold walk_matrix. rewrite entry_tabulate by lia. cbv zeta. rewrite !affinity_row, affinity_entry by lia. rewrite (Nat.eqb_sym i j). ring.
Qed.
Lemma walk_matrix_system alpha E n s (x : nat -> Q) : exact_roots root n E ->
  ((forall i, (i < n)%nat -> Qsum (map (fun j => entry (walk_matrix root alpha (affinity E n) n) i j * x j) (seq 0 n)) == s i) <-> walk_solution root n E alpha s x).
Proof using Type.
  intros HR.
  assert (Hs : forall i, (i < n)%nat -> Qsum (map (fun j => (1 / root (links n E i)) * link E i j * (1 / root (links n E j)) * x j) (seq 0 n)) ==
                 Qsum (map (fun j => link E i j / (root (links n E i) * root (links n E j)) * x j) (seq 0 n))).
  { intros i Hi. apply Qsum_ext. intros j Hj. apply in_seq in Hj. destruct (HR i Hi) as [H1 _]. destruct (HR j ltac:(lia)) as [H2 _]. field. lra. }
  split; intros H i Hi; specialize (H i Hi).
  - rewrite walk_matrix_sum, Hs in H by exact Hi. rewrite <- H. ring.
  - rewrite walk_matrix_sum, Hs by exact Hi. rewrite H at 1. ring.
Qed.
Lemma walk_kernel alpha E n : 0 < alpha < 1 -> (forall e, In e E -> 0 <= e_w e) -> ~ has_isolated n E -> exact_roots root n E ->
  forall x : nat -> Q, (forall r, (r < n)%nat -> Qsum (map (fun s => entry (walk_matrix root alpha (affinity E n) n) r s * x s) (seq 0 n)) == 0) -> forall s, (s < n)%nat -> x s == 0.
Proof using Type.
  intros Ha Hw Hiso HR x Hx i Hi. apply (walk_matrix_system alpha E n (fun _ => 0) x HR) in Hx.
  apply (walk_unique root n E alpha Ha Hw Hiso HR (fun _ => 0) x (fun _ => 0) Hx); [|exact Hi].
  intros j _. rewrite (Qsum_zero _ (seq 0 n)); [ring|]. intros; ring.
Qed.
Lemma signed_length a b y mask n : List.length y = n -> List.length mask = n -> List.length (signed_labels a b y mask) = n.
Proof using Type. intros Hy Hm. unfold signed_labels. rewrite map_length, combine_length. lia. Qed.
Lemma lazy_ok n ei weight y mask alpha d : solves solve -> lazy_random_walk root solve n ei weight y mask alpha = Ok d ->
  0 < alpha < 1 /\ exists E a b f, validate_graph n ei weight = Ok E /\ List.length y = Z.to_nat n /\ List.length mask = Z.to_nat n /\
    (exists i, nth i mask false = true) /\ the_classes y mask a b /\ ~ has_isolated (Z.to_nat n) E /\
    (exact_roots root (Z.to_nat n) E -> walk_solution root (Z.to_nat n) E alpha (sign_of a b y mask) f) /\
    d_iter d = 1%Z /\ d_residual d = Some 0 /\ shape (Z.to_nat n) 2 (d_F d) /\
    (forall i, (i < Z.to_nat n)%nat -> (0 <= f i -> entry (d_F d) i 0 = 0 /\ entry (d_F d) i 1 = 1) /\ (f i < 0 -> entry (d_F d) i 0 = 1 /\ entry (d_F d) i 1 = 0)).
Proof using Type.
  intros Hsol H. unfold lazy_random_walk in H. destruct (Qle_bool alpha 0) eqn:A0; [discriminate|]. destruct (Qle_bool 1 alpha) eqn:A1; [discriminate|]. cbn [orb] in H.
  split; [split; apply Qnot_le_lt; intros Hle; apply Qle_bool_iff in Hle; congruence|].
  inv_bind H. rename a into E0. apply checked_ok in E as (EG & Hy & Hm & Hl). inv_bind H. destruct a as [a b]. apply binary_spec in E.
  destruct (isolated (affinity E0 (Z.to_nat n))) eqn:Ei; [discriminate|]. destruct (solve _ _) as [f|] eqn:Es; [|discriminate]. injection H as <-.
  set (nn := Z.to_nat n) in *. exists E0, a, b, (fun i => entry f i 0). split; [exact EG|]. split; [exact Hy|]. split; [exact Hm|]. split; [exact Hl|]. split; [exact E|].
  split; [intros Hc; apply isolated_spec in Hc; congruence|]. split; [|split; [reflexivity|split; [reflexivity|split; [apply shape_tabulate|]]]].
  - intros HR. destruct (walk_matrix_shape alpha (affinity E0 nn) nn) as [S1 S2].
    assert (B1 : List.length (map (fun v : Q => [v]) (signed_labels a b y mask)) = nn) by (rewrite map_length; exact (signed_length a b y mask nn Hy Hm)).
    assert (B2 : forall r, In r (map (fun v : Q => [v]) (signed_labels a b y mask)) -> List.length r = 1%nat) by (intros r Hr; apply in_map_iff in Hr as (? & <- & _); reflexivity).
    destruct (Hsol _ _ _ nn 1%nat S1 S2 B1 B2 Es) as (_ & _ & Heq & _).
    apply walk_matrix_system; [exact HR|]. intros i Hi. rewrite (Heq i O Hi ltac:(lia)). unfold entry. rewrite (nth_map_in (fun v => [v]) _ i 0 []) by (rewrite (signed_length a b y mask nn Hy Hm); exact Hi).
    cbn [nth]. rewrite signed_nth by lia. reflexivity.
  - intros i Hi. cbn [d_F]. rewrite !entry_tabulate by lia. split; intros Hf.
    + apply Qle_bool_iff in Hf. rewrite Hf. split; reflexivity.
    + destruct (Qle_bool 0 (entry f i 0)) eqn:E1; [apply Qle_bool_iff in E1; lra|split; reflexivity].
Qed.
Lemma lazy_returns n ei weight y mask alpha E : validate_graph n ei weight = Ok E -> (forall e, In e E -> 0 <= e_w e) ->
  solves solve -> finds solve (Z.to_nat n) -> (~ has_isolated (Z.to_nat n) E -> exact_roots root (Z.to_nat n) E) ->
  ((exists d, lazy_random_walk root solve n ei weight y mask alpha = Ok d) <->
   0 < alpha < 1 /\ List.length y = Z.to_nat n /\ List.length mask = Z.to_nat n /\ (exists i, nth i mask false = true) /\
   (exists a b, the_classes y mask a b) /\ ~ has_isolated (Z.to_nat n) E).
Proof using Type.
  intros EG Hw Hsol Hf HR. split.
  - intros (d & H). destruct (lazy_ok _ _ _ _ _ _ _ Hsol H) as (Ha & E' & a & b & f & EG' & Hy & Hm & Hl & Hc & Hi & _). rewrite EG in EG'. injection EG' as <-.
    split; [exact Ha|]. split; [exact Hy|]. split; [exact Hm|]. split; [exact Hl|]. split; [eauto|exact Hi].
  - intros (Ha & Hy & Hm & Hl & (a & b & Hc) & Hi). unfold lazy_random_walk.
    destruct (Qle_bool alpha 0) eqn:A0; [apply Qle_bool_iff in A0; lra|]. destruct (Qle_bool 1 alpha) eqn:A1; [apply Qle_bool_iff in A1; lra|]. cbn [orb].
    rewrite (proj2 (checked_ok n ei weight y mask E)) by auto. cbn [bind]. rewrite (proj2 (binary_spec y mask a b) Hc). cbn [bind].
    destruct (isolated (affinity E (Z.to_nat n))) eqn:Ei; [exfalso; apply Hi, isolated_spec, Ei|].
    destruct (solve _ _) as [f|] eqn:Es; [eauto|]. exfalso. revert Es. apply Hf.
    + apply walk_matrix_shape.
    + apply walk_matrix_shape.
    + rewrite map_length. exact (signed_length a b y mask _ Hy Hm).
    + intros r Hr. apply in_map_iff in Hr as (? & <- & _). reflexivity.
    + apply walk_kernel; auto.
Qed.
End LazyProofs.

(* ---- a solver that checks a proposed inverse: it shows that the contracts can be met *)
Definition is_inverse (m : nat) (V A : mat) : bool :=
  forallb (fun i => forallb (fun j => Qeq_bool (Qsum (map (fun s => entry V i s * entry A s j) (seq 0 m))) (if Nat.eqb i j then 1 else 0)) (seq 0 m)) (seq 0 m).
Definition checked_solve (inv : mat -> mat) (A B : mat) : option mat :=
  let m := List.length A in
  if is_inverse m (inv A) A && is_inverse m A (inv A) then Some (tabulate m (List.length (nth 0 B [])) (fun i c => Qsum (map (fun s => entry (inv A) i s * entry B s c) (seq 0 m)))) else None.
Lemma is_inverse_ok m V A : is_inverse m V A = true -> forall i j, (i < m)%nat -> (j < m)%nat -> Qsum (map (fun s => entry V i s * entry A s j) (seq 0 m)) == if Nat.eqb i j then 1 else 0.
Proof.
  intros H i j Hi Hj. unfold is_inverse in H. rewrite forallb_forall in H. assert (H1 := H i ltac:(apply in_seq; lia)). rewrite forallb_forall in H1. apply Qeq_bool_iff, H1, in_seq. lia.
Qed.
Lemma inverse_apply m V A (x : nat -> Q) i : is_inverse m V A = true -> (i < m)%nat ->
  Qsum (map (fun s => entry V i s * Qsum (map (fun j => entry A s j * x j) (seq 0 m))) (seq 0 m)) == x i.
Proof.
  intros H Hi. transitivity (Qsum (map (fun j => (if Nat.eqb j i then 1 else 0) * x j) (seq 0 m))); [|apply sum_pick; [apply seq_NoDup|apply in_seq; lia]].
  transitivity (Qsum (map (fun s => Qsum (map (fun j => entry V i s * entry A s j * x j) (seq 0 m))) (seq 0 m))).
  - apply Qsum_ext. intros s _. rewrite <- Qsum_scale. apply Qsum_ext. intros j _. ring.
  - rewrite Qsum_swap. apply Qsum_ext. intros j Hj. apply in_seq in Hj. rewrite Qsum_scale_r. rewrite (is_inverse_ok m V A H i j Hi ltac:(lia)). rewrite Nat.eqb_sym. reflexivity.
Qed.
Lemma checked_solves inv : solves (checked_solve inv).
Proof.
  intros A B X m k HA HA' HB HB' H. unfold checked_solve in H. rewrite HA in H. destruct (is_inverse m (inv A) A) eqn:E1; [|discriminate]. destruct (is_inverse m A (inv A)) eqn:E2; [|discriminate]. cbn [andb] in H. injection H as <-.
  destruct m as [|m]. { split; [reflexivity|]. split; [intros r []|]. split; intros; lia. }
  assert (Hk : List.length (nth 0 B []) = k) by (apply HB', nth_In; lia). rewrite Hk.
  split; [apply (proj1 (shape_tabulate (S m) k _))|]. split; [apply (proj2 (shape_tabulate (S m) k _))|]. split.
  - intros r c Hr Hc. rewrite (Qsum_ext _ (fun s => entry A r s * Qsum (map (fun j => entry (inv A) s j * entry B j c) (seq 0 (S m)))) (seq 0 (S m))).
    + apply (inverse_apply (S m) A (inv A) (fun j => entry B j c) r E2 Hr).
    + intros s Hs. apply in_seq in Hs. rewrite entry_tabulate by lia. reflexivity.
  - intros x Hx s Hs. rewrite <- (inverse_apply (S m) (inv A) A x s E1 Hs). apply Qsum_zero. intros j Hj. apply in_seq in Hj. rewrite Hx by lia. ring.
Qed.
(* Cramer's rule on two equations *)
Definition cramer (A : mat) : mat :=
  let a := entry A 0 0 in let b := entry A 0 1 in let c := entry A 1 0 in let d := entry A 1 1 in
  let det := a * d - b * c in [[d / det; - b / det]; [- c / det; a / det]].
Lemma cramer_finds : finds (checked_solve cramer) 2.
Proof.
  intros A B HA HA' _ _ Hk. unfold checked_solve. rewrite HA.
  assert (Hdet : ~ entry A 0 0 * entry A 1 1 - entry A 0 1 * entry A 1 0 == 0).
  { intros Hd.
    assert (K : forall u v, entry A 0 0 * u + entry A 0 1 * v == 0 -> entry A 1 0 * u + entry A 1 1 * v == 0 -> u == 0 /\ v == 0).
    { intros u v H0 H1. assert (H := Hk (fun s => match s with O => u | _ => v end)).
      assert (Hz : forall r, (r < 2)%nat -> Qsum (map (fun s => entry A r s * match s with O => u | _ => v end) (seq 0 2)) == 0).
      { intros [|[|r]] Hr; [| |lia]; cbn [seq map]; rewrite !Qsum_cons, Qsum_nil; [transitivity (entry A 0 0 * u + entry A 0 1 * v); [ring|exact H0]|transitivity (entry A 1 0 * u + entry A 1 1 * v); [ring|exact H1]]. }
      split; [exact (H Hz O ltac:(lia))|exact (H Hz 1%nat ltac:(lia))]. }
    destruct (K (entry A 1 1) (- entry A 1 0)) as [D1 D2]; [transitivity (entry A 0 0 * entry A 1 1 - entry A 0 1 * entry A 1 0); [ring|exact Hd]|ring|].
    destruct (K (entry A 0 1) (- entry A 0 0)) as [D3 D4]; [ring|transitivity (- (entry A 0 0 * entry A 1 1 - entry A 0 1 * entry A 1 0)); [ring|rewrite Hd; reflexivity]|].
    destruct (K 1 0) as [D5 _]; [|rewrite Qmult_0_r, Qplus_0_r, Qmult_1_r; lra|lra]. rewrite Qmult_0_r, Qplus_0_r, Qmult_1_r. lra. }
  set (a := entry A 0 0) in *. set (b := entry A 0 1) in *. set (c := entry A 1 0) in *. set (d := entry A 1 1) in *.
  assert (Hinv : is_inverse 2 (cramer A) A = true /\ is_inverse 2 A (cramer A) = true).
  { split; unfold is_inverse; apply forallb_forall; intros i Hi; apply in_seq in Hi; apply forallb_forall; intros j Hj; apply in_seq in Hj; apply Qeq_bool_iff;
      (destruct i as [|[|i]]; [| |lia]); (destruct j as [|[|j]]; [| |lia]); cbn [seq map]; rewrite !Qsum_cons, Qsum_nil; cbn [Nat.eqb];
      fold a b c d; unfold cramer; fold a b c d; cbn [entry nth]; unfold entry; cbn [nth]; fold a b c d; field; exact Hdet. }
  destruct Hinv as [-> ->]. discriminate.
Qed.
