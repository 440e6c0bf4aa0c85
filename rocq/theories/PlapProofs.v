From Coq Require Import QArith Qminmax Qabs Lqa ZifyBool ZifyNat Sorting.Permutation.
From Verif Require Import Prelude ListFacts SampleServiceProofs QFacts TransModel TransSpec TransProofs TransSolveProofs CgProofs PoissonModel PoissonSpec PoissonProofs MboProofs PlapModel PlapSpec.
Local Open Scope Q_scope.
Local Open Scope list_scope.
Local Notation length := List.length.

(* ---- the graph *)
Lemma key_back n e : (0 <= e_src e < n)%Z -> (0 <= e_dst e < n)%Z -> (key n e / n = e_src e /\ key n e mod n = e_dst e)%Z.
Proof.
  intros H1 H2. unfold key. rewrite (Z.add_comm (e_src e * n)). split.
  - rewrite Z.div_add by lia. rewrite Z.div_small by lia. lia.
  - rewrite Z.mod_add by lia. apply Z.mod_small. lia.
Qed.
Lemma coalesce_weight n E i j : in_range (Z.to_nat n) E -> weight_from (coalesce n E) i j == weight_from E i j.
Proof.
  intros HR. unfold coalesce, weight_from.
  set (ks := uniqueZ (map (key n) E)).
  assert (HN : NoDup ks) by apply uniqueZ_NoDup.
  assert (HI : forall e, In e E -> In (key n e) ks) by (intros e He; apply uniqueZ_In, in_map, He).
  assert (HK : forall k, In k ks -> exists e, In e E /\ key n e = k).
  { intros k Hk. apply (proj1 (uniqueZ_In _ _)) in Hk. apply in_map_iff in Hk as (e & He & HE). eauto. }
  transitivity (Qsum (map (fun k => Qsum (map (fun e => if (key n e =? k)%Z then (if (e_dst e =? Z.of_nat i)%Z && (e_src e =? Z.of_nat j)%Z then e_w e else 0) else 0) E)) ks)).
  - rewrite <- Qsum_filter, map_map. apply Qsum_ext. intros k Hk. cbn [e_src e_dst e_w fst snd].
    destruct (HK k Hk) as (e0 & He0 & Hk0). destruct (HR e0 He0) as [R1 R2]. destruct (key_back n e0) as [B1 B2]; [lia|lia|]. rewrite Hk0 in B1, B2.
    destruct ((k mod n =? Z.of_nat i)%Z && (k / n =? Z.of_nat j)%Z) eqn:EK.
    + rewrite <- Qsum_filter. apply Qsum_ext. intros e He. destruct (Z.eqb_spec (key n e) k) as [Hek|Hek]; [|reflexivity].
      destruct (HR e He) as [S1 S2]. destruct (key_back n e) as [C1 C2]; [lia|lia|]. rewrite Hek in C1, C2. replace (_ && _) with true by lia. reflexivity.
    + symmetry. apply Qsum_zero. intros e He. destruct (Z.eqb_spec (key n e) k) as [Hek|Hek]; [|reflexivity].
      destruct (HR e He) as [S1 S2]. destruct (key_back n e) as [C1 C2]; [lia|lia|]. rewrite Hek in C1, C2. replace (_ && _) with false by lia. reflexivity.
  - rewrite Qsum_swap. rewrite <- Qsum_filter. apply Qsum_ext. intros e He.
    set (v := if (e_dst e =? Z.of_nat i)%Z && (e_src e =? Z.of_nat j)%Z then e_w e else 0).
    specialize (HI e He). clear -HN HI. induction ks as [|k ks IH]; [destruct HI|]. inversion HN as [|? ? N1 N2]; subst. cbn [map]. rewrite Qsum_cons.
    destruct (Z.eqb_spec (key n e) k) as [Hk|Hk].
    + rewrite Qsum_zero; [ring|]. intros x Hx. destruct (Z.eqb_spec (key n e) x); [congruence|reflexivity].
    + destruct HI as [HI|HI]; [congruence|]. rewrite (IH N2 HI). ring.
Qed.
Lemma coalesce_range n E : in_range (Z.to_nat n) E -> in_range (Z.to_nat n) (coalesce n E).
Proof.
  intros HR e He. unfold coalesce in He. apply in_map_iff in He as (k & <- & Hk). apply (proj1 (uniqueZ_In _ _)) in Hk. apply in_map_iff in Hk as (e0 & <- & He0).
  destruct (HR e0 He0) as [R1 R2]. destruct (key_back n e0) as [B1 B2]; [lia|lia|]. cbn [e_src e_dst fst snd]. rewrite B1, B2. split; assumption.
Qed.
Lemma plap_edges_range n sym zero E : in_range (Z.to_nat n) E -> in_range (Z.to_nat n) (plap_edges n sym zero E).
Proof.
  intros H. assert (H1 : in_range (Z.to_nat n) (if sym then coalesce n (E ++ map (fun e => (e_dst e, e_src e, e_w e)) E) else E)).
  { destruct sym; [|exact H]. apply coalesce_range. intros e He. apply in_app_iff in He as [He|He]; [apply H, He|]. apply in_map_iff in He as (e' & <- & He'). destruct (H e' He'). cbn. auto. }
  unfold plap_edges. destruct zero; [|exact H1]. intros e He. apply filter_In in He as [He _]. apply H1, He.
Qed.
Lemma plap_edges_weight n sym zero E i j : in_range (Z.to_nat n) E -> weight_from (plap_edges n sym zero E) i j == mbo_weight sym zero E i j.
Proof.
  intros H. rewrite <- mbo_edges_weight. unfold plap_edges, mbo_edges. cbv zeta.
  destruct sym, zero; rewrite ?weight_no_loops; try reflexivity; try (destruct (Nat.eqb i j); [reflexivity|]);
    apply coalesce_weight; intros e He; (apply in_app_iff in He as [He|He]; [apply H, He|]; apply in_map_iff in He as (e' & <- & He'); destruct (H e' He'); cbn; auto).
Qed.

(* ---- positions *)
Lemma position_Some idx i a : NoDup idx -> (position idx i = Some a <-> (a < length idx)%nat /\ nth a idx O = i).
Proof.
  revert a. induction idx as [|j idx IH]; intros a N; cbn [position].
  - split; [discriminate|]. intros [H _]. cbn in H. lia.
  - inversion N as [|? ? N1 N2]; subst. destruct (Nat.eqb_spec j i) as [->|Hne].
    + split; [intros [= <-]; cbn; lia|]. intros [Ha Hn]. destruct a as [|a]; [reflexivity|]. cbn in Ha, Hn. exfalso. apply N1. rewrite <- Hn. apply nth_In. lia.
    + split.
      * destruct (position idx i) as [b|] eqn:E; cbn; [|discriminate]. intros [= <-]. destruct (proj1 (IH b N2) eq_refl) as [E1 E2]. cbn. split; [lia|exact E2].
      * intros [Ha Hn]. destruct a as [|a]; [cbn in Hn; congruence|]. cbn in Ha, Hn. assert (E : position idx i = Some a) by (apply IH; [exact N2|split; [lia|exact Hn]]). rewrite E. reflexivity.
Qed.
Lemma position_nth idx a : NoDup idx -> (a < length idx)%nat -> position idx (nth a idx O) = Some a.
Proof. intros N H. apply position_Some; auto. Qed.
Lemma position_None idx i : position idx i = None <-> ~ In i idx.
Proof.
  induction idx as [|j idx IH]; cbn [position]; [intuition|]. destruct (Nat.eqb_spec j i) as [->|Hne]; [split; [discriminate|cbn; intuition]|].
  destruct (position idx i) as [b|]; cbn; [|intuition]. split; [discriminate|]. intros H. exfalso. assert (X : ~ In i idx) by intuition. apply IH in X. discriminate.
Qed.
Lemma position_In idx i : In i idx -> exists a, position idx i = Some a.
Proof. intros H. destruct (position idx i) as [a|] eqn:E; [eauto|]. apply position_None in E. contradiction. Qed.

(* ---- the weights between positions *)
Definition wt (A : list arc) (b a : nat) : Q := Qsum (map a_w (filter (fun e => Nat.eqb (a_dst e) b && Nat.eqb (a_src e) a) A)).
Lemma wt_cons e A b a : wt (e :: A) b a == (if Nat.eqb (a_dst e) b && Nat.eqb (a_src e) a then a_w e else 0) + wt A b a.
Proof. unfold wt. cbn [filter]. destruct (_ && _); [cbn [map]; rewrite Qsum_cons; reflexivity|ring]. Qed.
Lemma arcs_wt from to E m b a : in_range m E -> NoDup from -> NoDup to -> (b < length to)%nat -> (a < length from)%nat ->
  wt (arcs from to E) b a == weight_from E (nth b to O) (nth a from O).
Proof.
  intros HE NF NT Hb Ha. induction E as [|e E IH]; [reflexivity|]. specialize (IH (fun x Hx => HE x (or_intror Hx))). destruct (HE e (or_introl eq_refl)) as [R1 R2].
  unfold weight_from. cbn [arcs flat_map filter]. fold (arcs from to E).
  destruct (position from (Z.to_nat (e_src e))) as [a'|] eqn:EA.
  - apply (position_Some from _ a' NF) in EA as [A1 A2].
    destruct (position to (Z.to_nat (e_dst e))) as [b'|] eqn:EB.
    + apply (position_Some to _ b' NT) in EB as [B1 B2]. cbn [app]. rewrite wt_cons, IH. unfold weight_from. change (a_dst (a', b', e_w e)) with b'. change (a_src (a', b', e_w e)) with a'. change (a_w (a', b', e_w e)) with (e_w e).
      destruct (Nat.eqb_spec b' b) as [->|Hb'].
      * destruct (Nat.eqb_spec a' a) as [->|Ha']; cbn [andb].
        -- replace (_ && _) with true by lia. cbn [map]. rewrite Qsum_cons. reflexivity.
        -- destruct ((e_dst e =? Z.of_nat (nth b to O))%Z && (e_src e =? Z.of_nat (nth a from O))%Z) eqn:Ec; [|ring].
           exfalso. apply Ha'. apply (proj1 (NoDup_nth from O) NF); [exact A1|exact Ha|]. lia.
      * cbn [andb]. destruct ((e_dst e =? Z.of_nat (nth b to O))%Z && (e_src e =? Z.of_nat (nth a from O))%Z) eqn:Ec; [|ring].
        exfalso. apply Hb'. apply (proj1 (NoDup_nth to O) NT); [exact B1|exact Hb|]. lia.
    + cbn [app]. rewrite IH. unfold weight_from. apply position_None in EB.
      destruct ((e_dst e =? Z.of_nat (nth b to O))%Z && (e_src e =? Z.of_nat (nth a from O))%Z) eqn:Ec; [|reflexivity]. exfalso. apply EB. replace (Z.to_nat (e_dst e)) with (nth b to O) by lia. apply nth_In, Hb.
  - cbn [app]. rewrite IH. unfold weight_from. apply position_None in EA.
    destruct ((e_dst e =? Z.of_nat (nth b to O))%Z && (e_src e =? Z.of_nat (nth a from O))%Z) eqn:Ec; [|reflexivity]. exfalso. apply EA. replace (Z.to_nat (e_src e)) with (nth a from O) by lia. apply nth_In, Ha.
Qed.
Lemma arcs_src from to E e : NoDup from -> In e (arcs from to E) -> (a_src e < length from)%nat.
Proof.
  intros NF H. unfold arcs in H. apply in_flat_map in H as (d & _ & H). destruct (position from (Z.to_nat (e_src d))) as [a|] eqn:EA; [|destruct H]. destruct (position to _); [|destruct H].
  destruct H as [<-|[]]. apply (position_Some from _ a NF) in EA. apply EA.
Qed.
Lemma arcs_dst from to E e : NoDup to -> In e (arcs from to E) -> (a_dst e < length to)%nat.
Proof.
  intros NF H. unfold arcs in H. apply in_flat_map in H as (d & _ & H). destruct (position from (Z.to_nat (e_src d))) as [a|] eqn:EA; [|destruct H]. destruct (position to _) as [b|] eqn:EB; [|destruct H].
  destruct H as [<-|[]]. apply (position_Some to _ b NF) in EB. apply EB.
Qed.
Lemma into_sum A b m (x : nat -> Q) : (forall e, In e A -> (a_src e < m)%nat) -> into A b (fun e => a_w e * x (a_src e)) == Qsum (map (fun a => wt A b a * x a) (seq 0 m)).
Proof.
  unfold into. induction A as [|e A IH]; intros H.
  - cbn [filter map]. rewrite Qsum_nil. symmetry. apply Qsum_zero. intros a _. unfold wt. cbn. ring.
  - assert (He := H e (or_introl eq_refl)). specialize (IH (fun d Hd => H d (or_intror Hd))).
    rewrite (Qsum_ext (fun a => wt (e :: A) b a * x a) (fun a => (if Nat.eqb a (a_src e) then 1 else 0) * ((if Nat.eqb (a_dst e) b then a_w e else 0) * x a) + wt A b a * x a)).
    2:{ intros a _. rewrite wt_cons. rewrite (Nat.eqb_sym a). destruct (Nat.eqb (a_dst e) b), (Nat.eqb (a_src e) a); cbn [andb]; ring. }
    rewrite Qsum_plus. rewrite (sum_pick (fun a => (if Nat.eqb (a_dst e) b then a_w e else 0) * x a) (a_src e)); [|apply seq_NoDup|apply in_seq; lia].
    rewrite <- IH. cbn [filter]. destruct (Nat.eqb (a_dst e) b); [cbn [map]; rewrite Qsum_cons; reflexivity|ring].
Qed.
Lemma into_total A b m : (forall e, In e A -> (a_src e < m)%nat) -> into A b a_w == Qsum (map (wt A b) (seq 0 m)).
Proof.
  intros H. transitivity (into A b (fun e => a_w e * 1)); [unfold into; apply Qsum_ext; intros; ring|]. rewrite (into_sum A b m (fun _ => 1) H). apply Qsum_ext. intros; ring.
Qed.
Definition rescale (h : nat -> nat -> Q) (A : list arc) : list arc := map (fun e => (a_src e, a_dst e, a_w e * h (a_src e) (a_dst e))) A.
Lemma rescale_wt h A b a : wt (rescale h A) b a == wt A b a * h a b.
Proof.
  induction A as [|e A IH]; [unfold wt; cbn; ring|]. cbn [rescale map]. fold (rescale h A). rewrite !wt_cons, IH. change (a_dst (a_src e, a_dst e, a_w e * h (a_src e) (a_dst e))) with (a_dst e). change (a_src (a_src e, a_dst e, a_w e * h (a_src e) (a_dst e))) with (a_src e).
  change (a_w (a_src e, a_dst e, a_w e * h (a_src e) (a_dst e))) with (a_w e * h (a_src e) (a_dst e)).
  destruct (Nat.eqb_spec (a_dst e) b) as [->|]; cbn [andb]; [destruct (Nat.eqb_spec (a_src e) a) as [->|]|]; ring.
Qed.
Lemma rescale_src h A m : (forall e, In e A -> (a_src e < m)%nat) -> forall e, In e (rescale h A) -> (a_src e < m)%nat.
Proof. intros H e He. apply in_map_iff in He as (d & <- & Hd). exact (H d Hd). Qed.

(* ---- a grounded system between positions *)
Section Grounded.
Variables (m l : nat) (eps : Q) (uu ul : list arc).
Hypothesis SU : forall e, In e uu -> (a_src e < m)%nat.
Hypothesis SL : forall e, In e ul -> (a_src e < l)%nat.
Let A := plap_matvec eps uu ul m.
Let D b := over_nodes m (wt uu b) + over_nodes l (wt ul b) + eps.
Lemma diagonal_is b : diagonal eps uu ul b == D b.
Proof. unfold diagonal, D. rewrite (into_total uu b m SU), (into_total ul b l SL). reflexivity. Qed.
Lemma matvec_length x : length (A x) = m.
Proof. unfold A, plap_matvec. rewrite map_length, seq_length. reflexivity. Qed.
Lemma matvec_nth x b : (b < m)%nat -> nth b (A x) 0 == D b * nth b x 0 - over_nodes m (fun a => wt uu b a * nth a x 0).
Proof.
  intros Hb. unfold A, plap_matvec. rewrite (nth_map_in _ _ b O) by (rewrite seq_length; exact Hb). rewrite seq_nth by exact Hb. cbn [Nat.add].
  rewrite diagonal_is, (into_sum uu b m (fun a => nth a x 0) SU). reflexivity.
Qed.
Lemma rhs_length g : length (plap_rhs ul g m) = m.
Proof. unfold plap_rhs. rewrite map_length, seq_length. reflexivity. Qed.
Lemma rhs_nth g b : (b < m)%nat -> nth b (plap_rhs ul g m) 0 == over_nodes l (fun a => wt ul b a * nth a g 0).
Proof.
  intros Hb. unfold plap_rhs. rewrite (nth_map_in _ _ b O) by (rewrite seq_length; exact Hb). rewrite seq_nth by exact Hb. cbn [Nat.add].
  rewrite (into_sum ul b l (fun a => nth a g 0) SL). unfold over_nodes. ring.
Qed.
Lemma matvec_linear : linear m A.
Proof.
  split; [intros x _; apply matvec_length|]. intros x q a Hx Hq.
  assert (HL : length (vadd (A x) (vscale a (A q))) = m) by (rewrite vadd_length; rewrite ?vscale_length, ?matvec_length; reflexivity).
  split; [rewrite matvec_length, HL; reflexivity|]. intros b. destruct (Nat.lt_ge_cases b m) as [Hb|Hb]; [|rewrite !nth_overflow by (rewrite ?matvec_length, ?HL; exact Hb); reflexivity].
  rewrite vadd_nth by (rewrite vscale_length, !matvec_length; reflexivity). rewrite vscale_nth, !matvec_nth by exact Hb.
  assert (HV : forall j, nth j (vadd x (vscale a q)) 0 == nth j x 0 + a * nth j q 0) by (intros j; rewrite vadd_nth by (rewrite vscale_length; congruence); rewrite vscale_nth; reflexivity).
  rewrite (over_ext m (fun j => wt uu b j * nth j (vadd x (vscale a q)) 0) (fun j => wt uu b j * nth j x 0 + a * (wt uu b j * nth j q 0))) by (intros j _; rewrite HV; ring).
  rewrite over_linear, HV. ring.
Qed.
Hypothesis EP : 0 < eps.
Hypothesis KS : forall a b, (a < m)%nat -> (b < m)%nat -> wt uu b a == wt uu a b.
Hypothesis KN : forall a b, (a < m)%nat -> (b < m)%nat -> 0 <= wt uu b a.
Hypothesis LN : forall a b, (a < l)%nat -> (b < m)%nat -> 0 <= wt ul b a.
Lemma matvec_dot x z : length x = m -> length z = m ->
  dot x (A z) == over_nodes m (fun b => D b * (nth b x 0 * nth b z 0)) - over_nodes m (fun b => over_nodes m (fun a => wt uu b a * (nth b x 0 * nth a z 0))).
Proof.
  intros Hx Hz. rewrite (dot_sum x (A z) m Hx (matvec_length z)). unfold over_nodes. rewrite <- Qsum_minus. apply Qsum_ext. intros b Hb. apply in_seq in Hb.
  rewrite matvec_nth by lia. rewrite (Qsum_ext (fun a => wt uu b a * (nth b x 0 * nth a z 0)) (fun a => nth b x 0 * (wt uu b a * nth a z 0))) by (intros; ring). rewrite Qsum_scale. unfold over_nodes. ring.
Qed.
Lemma matvec_positive : positive_definite m A.
Proof.
  split.
  - intros x z Hx Hz. rewrite (dot_comm m (A x) z (matvec_length x) Hz), !matvec_dot by assumption.
    rewrite (over_ext m (fun b => D b * (nth b x 0 * nth b z 0)) (fun b => D b * (nth b z 0 * nth b x 0))) by (intros; ring).
    rewrite (over_swap m (fun b a => wt uu b a * (nth b x 0 * nth a z 0))).
    rewrite (over_ext m (fun j => over_nodes m (fun i => wt uu i j * (nth i x 0 * nth j z 0))) (fun b => over_nodes m (fun a => wt uu b a * (nth b z 0 * nth a x 0)))); [ring|].
    intros b Hb. apply over_ext. intros a Ha. rewrite (KS b a Hb Ha). ring.
  - intros x Hx (i & Hi). rewrite matvec_dot by assumption.
    assert (Hin : (i < m)%nat) by (destruct (Nat.lt_ge_cases i m) as [|Hge]; [assumption|]; exfalso; apply Hi; rewrite nth_overflow by lia; reflexivity).
    set (X := over_nodes m (fun b => nth b x 0 * nth b x 0)).
    assert (HX : 0 < X).
    { apply Qnot_le_lt. intros Hc. apply Hi. apply (over_squares_zero m (fun b => nth b x 0) Hc i Hin). }
    set (G := over_nodes m (fun b => over_nodes m (fun a => wt uu b a * (nth b x 0 * nth b x 0)))).
    set (C := over_nodes m (fun b => over_nodes m (fun a => wt uu b a * (nth b x 0 * nth a x 0)))).
    assert (HD : G + eps * X <= over_nodes m (fun b => D b * (nth b x 0 * nth b x 0))).
    { unfold G, X. rewrite <- over_linear. apply Qsum_le. intros b Hb. apply in_seq in Hb.
      assert (E1 : over_nodes m (fun a => wt uu b a * (nth b x 0 * nth b x 0)) == over_nodes m (wt uu b) * (nth b x 0 * nth b x 0)) by (unfold over_nodes; apply Qsum_scale_r).
      rewrite E1. unfold D. assert (0 <= over_nodes l (wt ul b)) by (apply Qsum_nonneg; intros q Hq; apply in_map_iff in Hq as (a & <- & Ha); apply in_seq in Ha; apply LN; lia).
      assert (0 <= nth b x 0 * nth b x 0) by (generalize (nth b x 0); intros; nra). assert (0 <= over_nodes l (wt ul b) * (nth b x 0 * nth b x 0)) by (apply Qmult_le_0_compat; assumption).
      lra. }
    assert (HG : 0 <= G - C).
    { assert (G2 : G == over_nodes m (fun b => over_nodes m (fun a => wt uu b a * (nth a x 0 * nth a x 0)))).
      { unfold G. rewrite (over_swap m). apply over_ext. intros b Hb. apply over_ext. intros a Ha. rewrite (KS b a Hb Ha). reflexivity. }
      assert (HS : 0 <= over_nodes m (fun b => over_nodes m (fun a => wt uu b a * ((nth b x 0 - nth a x 0) * (nth b x 0 - nth a x 0))))).
      { apply Qsum_nonneg. intros q Hq. apply in_map_iff in Hq as (b & <- & Hb). apply Qsum_nonneg. intros q Hq. apply in_map_iff in Hq as (a & <- & Ha). apply in_seq in Hb, Ha.
        apply Qmult_le_0_compat; [apply KN; lia|]. generalize (nth b x 0 - nth a x 0). intros; nra. }
      assert (HE : over_nodes m (fun b => over_nodes m (fun a => wt uu b a * ((nth b x 0 - nth a x 0) * (nth b x 0 - nth a x 0)))) == G + G - (2#1) * C).
      { rewrite G2 at 2. unfold G, C. rewrite <- (over_scale m (2#1)). unfold over_nodes. rewrite <- Qsum_plus, <- Qsum_minus. apply Qsum_ext. intros b _. rewrite <- Qsum_scale, <- Qsum_plus, <- Qsum_minus. apply Qsum_ext. intros a _. ring. }
      rewrite HE in HS. lra. }
    assert (0 < eps * X) by (apply Qmult_lt_0_compat; assumption). fold C. lra.
Qed.
End Grounded.

(* ---- conjugate gradient leaves a closed set of zeros alone *)
Lemma cg_zero (A : vec -> vec) tol m (Zs : nat -> Prop) b mi :
  (forall x, length x = m -> length (A x) = m) ->
  (forall x, length x = m -> (forall i, Zs i -> nth i x 0 == 0) -> forall i, Zs i -> nth i (A x) 0 == 0) ->
  length b = m -> (forall i, Zs i -> nth i b 0 == 0) ->
  forall i, Zs i -> nth i (fst (cg_solve A tol b None mi)) 0 == 0.
Proof.
  intros HL HZ Hb Zb. unfold cg_solve. set (x0 := map (fun _ : Q => 0) b).
  assert (L0 : length x0 = m) by (unfold x0; rewrite map_length; exact Hb).
  assert (Z0 : forall i, nth i x0 0 == 0).
  { intros i. unfold x0. clear. revert i. induction b as [|c b IH]; intros [|i]; cbn; try reflexivity. apply IH. }
  destruct (Qeq_bool _ 0); [intros i _; apply Z0|].
  assert (LP : forall fuel k x r p rs info, length x = m -> length r = m -> length p = m ->
    (forall i, Zs i -> nth i x 0 == 0) -> (forall i, Zs i -> nth i r 0 == 0) -> (forall i, Zs i -> nth i p 0 == 0) ->
    forall i, Zs i -> nth i (fst (cg_loop A tol fuel k x r p rs info)) 0 == 0).
  { induction fuel as [|fuel IH]; intros k x r p rs info Lx Lr Lp Zx Zr Zp i Hi; cbn [cg_loop]; [apply Zx, Hi|].
    destruct (Qeq_bool (dot p (A p)) 0); [apply Zx, Hi|]. cbv zeta. set (al := rs / dot p (A p)).
    assert (LA := HL p Lp). assert (ZA := HZ p Lp Zp).
    assert (Lx' : length (vadd x (vscale al p)) = m) by (rewrite vadd_length; rewrite ?vscale_length; congruence).
    assert (Lr' : length (vsub r (vscale al (A p))) = m) by (rewrite vsub_length; rewrite ?vscale_length; congruence).
    assert (Zx' : forall i, Zs i -> nth i (vadd x (vscale al p)) 0 == 0).
    { intros j Hj. rewrite vadd_nth by (rewrite vscale_length; congruence). rewrite vscale_nth, (Zx j Hj), (Zp j Hj). ring. }
    assert (Zr' : forall i, Zs i -> nth i (vsub r (vscale al (A p))) 0 == 0).
    { intros j Hj. rewrite vsub_nth by (rewrite vscale_length; congruence). rewrite vscale_nth, (Zr j Hj), (ZA j Hj). ring. }
    destruct (within _ tol); [apply Zx', Hi|]. apply IH; try assumption.
    - rewrite vadd_length; rewrite ?vscale_length; congruence.
    - intros j Hj. rewrite vadd_nth by (rewrite vscale_length; congruence). rewrite vscale_nth, (Zr' j Hj), (Zp j Hj). ring. }
  assert (LA := HL x0 L0).
  assert (Lr : length (vsub b (A x0)) = m) by (rewrite vsub_length; congruence).
  assert (Zr : forall i, Zs i -> nth i (vsub b (A x0)) 0 == 0).
  { intros j Hj. rewrite vsub_nth by congruence. rewrite (Zb j Hj), (HZ x0 L0 (fun i _ => Z0 i) j Hj). ring. }
  apply LP; auto.
Qed.

(* ---- from positions to nodes *)
Section Nodes.
Variables (n : nat) (mask : list bool) (E : list edge) (eps : Q).
Hypothesis ML : length mask = n.
Hypothesis ER : in_range n E.
Let us := flatnonzero (map negb mask).
Let ls := flatnonzero mask.
Let m := length us.
Let l := length ls.
Let W := weight_from E.
Let uu := arcs us us E.
Let ul := arcs ls us E.
Definition value (x g : vec) (i : nat) : Q :=
  match position us i with Some b => nth b x 0 | None => match position ls i with Some a => nth a g 0 | None => 0 end end.
Lemma us_NoDup : NoDup us. Proof. apply flatnonzero_NoDup. Qed.
Lemma ls_NoDup : NoDup ls. Proof. apply flatnonzero_NoDup. Qed.
Lemma us_In i : In i us <-> (i < n)%nat /\ nth i mask false = false.
Proof. unfold us. rewrite unlabelled_In, ML. reflexivity. Qed.
Lemma ls_In i : In i ls <-> nth i mask false = true.
Proof. apply flatnonzero_In. Qed.
Lemma value_u x g b : (b < m)%nat -> value x g (nth b us O) = nth b x 0.
Proof. intros Hb. unfold value. rewrite (position_nth us b us_NoDup Hb). reflexivity. Qed.
Lemma value_l x g a : (a < l)%nat -> value x g (nth a ls O) = nth a g 0.
Proof.
  intros Ha. unfold value. assert (Hn : position us (nth a ls O) = None).
  { apply position_None. rewrite us_In. assert (H : In (nth a ls O) ls) by (apply nth_In; exact Ha). apply ls_In in H. intros [_ H']. congruence. }
  rewrite Hn, (position_nth ls a ls_NoDup Ha). reflexivity.
Qed.
Lemma over_split f : over_nodes n f == over_nodes m (fun a => f (nth a us O)) + over_nodes l (fun a => f (nth a ls O)).
Proof.
  unfold over_nodes, m, l. rewrite (sum_by_index us f) by reflexivity. rewrite (sum_by_index ls f) by reflexivity.
  rewrite Qplus_comm, <- Qsum_app, <- map_app. apply Qsum_perm, Permutation_map, Permutation_sym. rewrite <- ML. apply mask_partition.
Qed.
Lemma uu_src e : In e uu -> (a_src e < m)%nat. Proof. apply arcs_src, us_NoDup. Qed.
Lemma ul_src e : In e ul -> (a_src e < l)%nat. Proof. apply arcs_src, ls_NoDup. Qed.
Lemma uu_wt b a : (b < m)%nat -> (a < m)%nat -> wt uu b a == W (nth b us O) (nth a us O).
Proof. intros Hb Ha. apply (arcs_wt us us E n); auto using us_NoDup. Qed.
Lemma ul_wt b a : (b < m)%nat -> (a < l)%nat -> wt ul b a == W (nth b us O) (nth a ls O).
Proof. intros Hb Ha. apply (arcs_wt ls us E n); auto using us_NoDup, ls_NoDup. Qed.

(* the system with scaled weights *)
Section Scaled.
Variable s : nat -> nat -> Q.
Variables (uu' ul' : list arc).
Hypothesis SU : forall e, In e uu' -> (a_src e < m)%nat.
Hypothesis SL : forall e, In e ul' -> (a_src e < l)%nat.
Hypothesis HK : forall b a, (b < m)%nat -> (a < m)%nat -> wt uu' b a == W (nth b us O) (nth a us O) * s (nth b us O) (nth a us O).
Hypothesis HL : forall b a, (b < m)%nat -> (a < l)%nat -> wt ul' b a == W (nth b us O) (nth a ls O) * s (nth b us O) (nth a ls O).
Lemma outflow_is x g b : (b < m)%nat ->
  outflow n W eps s (value x g) (nth b us O) == nth b (plap_matvec eps uu' ul' m x) 0 - nth b (plap_rhs ul' g m) 0.
Proof.
  intros Hb. rewrite (matvec_nth m l eps uu' ul' SU SL x b Hb), (rhs_nth m l ul' SL g b Hb). unfold outflow. rewrite over_split, (value_u x g b Hb).
  rewrite (over_ext m _ (fun a => wt uu' b a * nth b x 0 + (-1) * (wt uu' b a * nth a x 0))) by (intros a Ha; rewrite (value_u x g a Ha), (HK b a Hb Ha); ring).
  rewrite (over_ext l _ (fun a => wt ul' b a * nth b x 0 + (-1) * (wt ul' b a * nth a g 0))) by (intros a Ha; rewrite (value_l x g a Ha), (HL b a Hb Ha); ring).
  rewrite !over_linear.
  assert (E1 : over_nodes m (fun a => wt uu' b a * nth b x 0) == over_nodes m (wt uu' b) * nth b x 0) by (unfold over_nodes; apply Qsum_scale_r).
  assert (E2 : over_nodes l (fun a => wt ul' b a * nth b x 0) == over_nodes l (wt ul' b) * nth b x 0) by (unfold over_nodes; apply Qsum_scale_r).
  rewrite E1, E2. ring.
Qed.
Lemma imbalance_is x g : length x = m -> residual2 (plap_matvec eps uu' ul' m) (plap_rhs ul' g m) x == imbalance n mask W eps s (value x g).
Proof.
  intros Hx. unfold residual2, imbalance.
  assert (LV : length (vsub (plap_rhs ul' g m) (plap_matvec eps uu' ul' m x)) = m).
  { rewrite vsub_length; unfold plap_rhs, plap_matvec; rewrite !map_length, ?seq_length; reflexivity. }
  rewrite (dot_sum _ _ m LV LV).
  assert (P : Permutation us (unlabelled n mask)).
  { apply NoDup_Permutation; [apply us_NoDup|apply NoDup_filter, seq_NoDup|]. intros i. rewrite us_In. unfold unlabelled. rewrite filter_In, in_seq, negb_true_iff. intuition lia. }
  rewrite <- (Qsum_perm _ _ (Permutation_map _ P)). rewrite <- (sum_by_index us _ (fun b => outflow n W eps s (value x g) (nth b us O) * outflow n W eps s (value x g) (nth b us O))) by reflexivity.
  fold m. apply Qsum_ext. intros b Hb. apply in_seq in Hb. rewrite (outflow_is x g b) by lia.
  rewrite !vsub_nth by (unfold plap_rhs, plap_matvec; rewrite !map_length; reflexivity). ring.
Qed.
Hypothesis EP : 0 < eps.
Hypothesis WS : forall i j, (i < n)%nat -> (j < n)%nat -> W i j == W j i /\ 0 <= W i j.
Hypothesis SS : forall i j, (i < n)%nat -> (j < n)%nat -> s i j == s j i /\ 0 <= s i j.
Lemma us_lt b : (b < m)%nat -> (nth b us O < n)%nat.
Proof using ML. clear -ML. intros Hb. assert (H : In (nth b us O) us) by (apply nth_In; exact Hb). apply us_In in H. apply H. Qed.
Lemma ls_lt b : (b < l)%nat -> (nth b ls O < n)%nat.
Proof using ML. clear -ML. intros Hb. assert (H : In (nth b ls O) ls) by (apply nth_In; exact Hb). apply ls_In in H. destruct (Nat.lt_ge_cases (nth b ls O) n) as [|Hge]; [assumption|]. rewrite nth_overflow in H by lia. discriminate. Qed.
Lemma scaled_positive : positive_definite m (plap_matvec eps uu' ul' m).
Proof.
  apply (matvec_positive m l); try assumption.
  - intros a b Ha Hb. rewrite (HK b a Hb Ha), (HK a b Ha Hb). rewrite (proj1 (WS _ _ (us_lt b Hb) (us_lt a Ha))), (proj1 (SS _ _ (us_lt b Hb) (us_lt a Ha))). reflexivity.
  - intros a b Ha Hb. rewrite (HK b a Hb Ha). apply Qmult_le_0_compat; [apply WS|apply SS]; apply us_lt; assumption.
  - intros a b Ha Hb. rewrite (HL b a Hb Ha). apply Qmult_le_0_compat; [apply WS|apply SS]; (apply us_lt || apply ls_lt); assumption.
Qed.
Lemma solve_balanced g tol mi x info : 0 <= tol -> (Z.of_nat m <= mi)%Z ->
  cg_solve (plap_matvec eps uu' ul' m) tol (plap_rhs ul' g m) None mi = (x, info) ->
  length x = m /\ imbalance n mask W eps s (value x g) <= tol * tol /\ (cg_iter info <= Z.of_nat m)%Z /\ cg_residual2 info == imbalance n mask W eps s (value x g).
Proof.
  intros Ht Hm H. assert (HLin := matvec_linear m l eps uu' ul' SU SL).
  destruct (cg_ok m (plap_matvec eps uu' ul' m) HLin (plap_rhs ul' g m) (rhs_length m ul' g) tol None mi x info ltac:(discriminate) H) as (Hx & Hq & _).
  destruct (cg_converges m (plap_matvec eps uu' ul' m) HLin (plap_rhs ul' g m) (rhs_length m ul' g) tol scaled_positive Ht None mi x info ltac:(discriminate) Hm H) as (_ & Hi & Hr).
  split; [exact Hx|]. rewrite <- (imbalance_is x g Hx). split; [assumption|split; assumption].
Qed.
End Scaled.
End Nodes.

(* ---- Newton's method *)
Section Newton.
Variables (root : Q -> Q) (power : Q -> Q -> Q) (sp : plap_spec).
Variables (n : nat) (mask : list bool) (E : list edge).
Hypothesis ML : length mask = n.
Hypothesis ER : in_range n E.
Let us := flatnonzero (map negb mask).
Let ls := flatnonzero mask.
Let m := length us.
Let l := length ls.
Let W := weight_from E.
Let uu := arcs us us E.
Let ul := arcs ls us E.
Let p := pl_p sp.
Let eps := pl_eps sp.
Variable g : vec.
Let val (x : vec) := value mask x g.
Hypothesis PW : forall x y, x == y -> power (p - 2) x == power (p - 2) y.
Lemma uu_wt' b a : (b < m)%nat -> (a < m)%nat -> wt uu b a == W (nth b us O) (nth a us O). Proof. exact (uu_wt n mask E ER b a). Qed.
Lemma ul_wt' b a : (b < m)%nat -> (a < l)%nat -> wt ul b a == W (nth b us O) (nth a ls O). Proof. exact (ul_wt n mask E ER b a). Qed.
Lemma val_u u b : (b < m)%nat -> val u (nth b us O) = nth b u 0. Proof. exact (value_u mask u g b). Qed.
Lemma val_l u a : (a < l)%nat -> val u (nth a ls O) = nth a g 0. Proof. exact (value_l n mask ML u g a). Qed.

Lemma weights_rescale_uu u : weights_uu power sp u uu = rescale (fun a b => power (p - 2) (Qabs (nth a u 0 - nth b u 0))) uu.
Proof. reflexivity. Qed.
Lemma weights_rescale_ul u : weights_ul power sp u g ul = rescale (fun a b => power (p - 2) (Qabs (nth b u 0 - nth a g 0))) ul.
Proof. reflexivity. Qed.
Lemma newton_wt_uu u b a : (b < m)%nat -> (a < m)%nat ->
  wt (weights_uu power sp u uu) b a == W (nth b us O) (nth a us O) * gradient p power (val u) (nth b us O) (nth a us O).
Proof using All.
  intros Hb Ha. rewrite weights_rescale_uu, rescale_wt, (uu_wt' b a Hb Ha). unfold gradient. rewrite (val_u u a Ha), (val_u u b Hb).
  rewrite (PW _ (Qabs (nth b u 0 - nth a u 0))); [reflexivity|]. rewrite Qabs_Qminus. reflexivity.
Qed.
Lemma newton_wt_ul u b a : (b < m)%nat -> (a < l)%nat ->
  wt (weights_ul power sp u g ul) b a == W (nth b us O) (nth a ls O) * gradient p power (val u) (nth b us O) (nth a ls O).
Proof using All.
  intros Hb Ha. rewrite weights_rescale_ul, rescale_wt, (ul_wt' b a Hb Ha). unfold gradient. rewrite (val_l u a Ha), (val_u u b Hb). reflexivity.
Qed.
Lemma newton_src_uu u e : In e (weights_uu power sp u uu) -> (a_src e < m)%nat.
Proof. rewrite weights_rescale_uu. apply rescale_src, uu_src. Qed.
Lemma newton_src_ul u e : In e (weights_ul power sp u g ul) -> (a_src e < l)%nat.
Proof. rewrite weights_rescale_ul. apply rescale_src, ul_src. Qed.
Lemma plain_wt_uu b a : (b < m)%nat -> (a < m)%nat -> wt uu b a == W (nth b us O) (nth a us O) * plain (nth b us O) (nth a us O).
Proof. intros Hb Ha. rewrite (uu_wt' b a Hb Ha). unfold plain. ring. Qed.
Lemma plain_wt_ul b a : (b < m)%nat -> (a < l)%nat -> wt ul b a == W (nth b us O) (nth a ls O) * plain (nth b us O) (nth a ls O).
Proof. intros Hb Ha. rewrite (ul_wt' b a Hb Ha). unfold plain. ring. Qed.

(* scores that stay 0: no contract on the solver *)
Lemma unreached_solve (s : nat -> nat -> Q) uu' ul' b0 :
  (forall e, In e uu' -> (a_src e < m)%nat) -> (forall e, In e ul' -> (a_src e < l)%nat) ->
  (forall b a, (b < m)%nat -> (a < m)%nat -> wt uu' b a == W (nth b us O) (nth a us O) * s (nth b us O) (nth a us O)) ->
  (forall b a, (b < m)%nat -> (a < l)%nat -> wt ul' b a == W (nth b us O) (nth a ls O) * s (nth b us O) (nth a ls O)) ->
  (b0 < m)%nat -> ~ reached n mask W (nth b0 us O) -> nth b0 (fst (solve_linear sp uu' ul' g m)) 0 == 0.
Proof using All.
  intros SU SL HK HL Hb0 HR0. unfold solve_linear.
  apply (cg_zero _ _ m (fun b => (b < m)%nat /\ ~ reached n mask W (nth b us O))); [| | | |split; assumption].
  - intros x _. apply matvec_length.
  - intros x Hx Zx b [Hb HR]. rewrite (matvec_nth m l _ uu' ul' SU SL x b Hb). rewrite (Zx b (conj Hb HR)).
    assert (Z : over_nodes m (fun a => wt uu' b a * nth a x 0) == 0); [|rewrite Z; ring].
    apply Qsum_zero. intros a Ha. apply in_seq in Ha. assert (Ha' : (a < m)%nat) by lia. rewrite (HK b a Hb Ha'). destruct (Qeq_dec (W (nth b us O) (nth a us O)) 0) as [Hz|Hz]; [rewrite Hz; ring|].
    rewrite (Zx a); [ring|]. split; [exact Ha'|]. intros Ra. apply HR. apply (reached_step n mask W _ (nth a us O)); [exact (us_lt n mask ML a Ha')|exact Hz|exact Ra].
  - apply rhs_length.
  - intros b [Hb HR]. rewrite (rhs_nth m l ul' SL g b Hb). apply Qsum_zero. intros a Ha. apply in_seq in Ha. assert (Ha' : (a < l)%nat) by lia. rewrite (HL b a Hb Ha').
    destruct (Qeq_dec (W (nth b us O) (nth a ls O)) 0) as [Hz|Hz]; [rewrite Hz; ring|]. exfalso. apply HR. apply (reached_step n mask W _ (nth a ls O)); [exact (ls_lt n mask ML a Ha')|exact Hz|].
    apply reached_label. apply flatnonzero_In. apply nth_In. exact Ha'.
Qed.
Lemma solve_length uu' ul' : (forall e, In e uu' -> (a_src e < m)%nat) -> (forall e, In e ul' -> (a_src e < l)%nat) -> length (fst (solve_linear sp uu' ul' g m)) = m.
Proof using All.
  intros SU SL. unfold solve_linear. destruct (cg_solve _ _ _ _ _) as [x info] eqn:H.
  destruct (cg_ok m _ (matvec_linear m l (pl_eps sp) uu' ul' SU SL) (plap_rhs ul' g m) (rhs_length m ul' g) _ None _ x info ltac:(discriminate) H) as (Hx & _). exact Hx.
Qed.
Lemma next_nth u v b : length u = m -> length v = m ->
  nth b (vadd (vscale ((p - 2) / (p - 1)) u) (vscale (1 / (p - 1)) v)) 0 == (p - 2) / (p - 1) * nth b u 0 + 1 / (p - 1) * nth b v 0.
Proof using All. intros Hu Hv. rewrite vadd_nth by (rewrite !vscale_length; congruence). rewrite !vscale_nth. reflexivity. Qed.
Lemma next_length u v : length u = m -> length v = m -> length (vadd (vscale ((p - 2) / (p - 1)) u) (vscale (1 / (p - 1)) v)) = m.
Proof using All. intros Hu Hv. rewrite vadd_length; rewrite ?vscale_length; congruence. Qed.
Lemma newton_unreached b0 : (b0 < m)%nat -> ~ reached n mask W (nth b0 us O) ->
  forall fuel it u ni r, length u = m -> nth b0 u 0 == 0 -> nth b0 (fst (fst (newton power sp uu ul g m fuel it u ni r))) 0 == 0.
Proof using All.
  intros Hb0 HR. induction fuel as [|fuel IH]; intros it u ni r Hu Zu; cbn [newton]; [exact Zu|]. cbv zeta.
  set (v := fst (solve_linear sp (weights_uu power sp u uu) (weights_ul power sp u g ul) g m)).
  assert (Lv : length v = m) by (apply solve_length; [apply newton_src_uu|apply newton_src_ul]).
  assert (Zv : nth b0 v 0 == 0).
  { apply (unreached_solve (gradient p power (val u))); [apply newton_src_uu|apply newton_src_ul|intros; apply newton_wt_uu; assumption|intros; apply newton_wt_ul; assumption|exact Hb0|exact HR]. }
  fold p. set (u' := vadd (vscale ((p - 2) / (p - 1)) u) (vscale (1 / (p - 1)) v)).
  assert (Lu' : length u' = m) by (apply next_length; assumption).
  assert (Zu' : nth b0 u' 0 == 0) by (unfold u'; rewrite (next_nth u v b0 Hu Lv), Zu, Zv; ring).
  destruct (Qle_bool _ _); [exact Zu'|]. apply IH; assumption.
Qed.
Lemma class_unreached b0 : (b0 < m)%nat -> ~ reached n mask W (nth b0 us O) -> nth b0 (fst (fst (plap_class root power sp uu ul g m))) 0 == 0.
Proof using All.
  intros Hb0 HR. unfold plap_class. destruct (solve_linear sp uu ul g m) as [u info] eqn:H.
  assert (Lu : length u = m) by (change u with (fst (u, info)); rewrite <- H; apply solve_length; [apply uu_src|apply ul_src]).
  assert (Zu : nth b0 u 0 == 0).
  { change u with (fst (u, info)). rewrite <- H. apply (unreached_solve plain); [apply uu_src|apply ul_src|apply plain_wt_uu|apply plain_wt_ul|exact Hb0|exact HR]. }
  destruct (negb _); [|exact Zu]. apply newton_unreached; assumption.
Qed.

(* with enough rounds of conjugate gradient on a symmetric graph *)
Hypothesis EP : 0 < eps.
Hypothesis WS : forall i j, (i < n)%nat -> (j < n)%nat -> W i j == W j i /\ 0 <= W i j.
Hypothesis PN : 0 < p - 2 -> forall x, 0 <= x -> 0 <= power (p - 2) x.
Hypothesis CT : 0 <= pl_cg_tol sp.
Hypothesis CM : (Z.of_nat m <= pl_cg_max_iter sp)%Z.
Lemma gradient_sym u : 0 < p - 2 -> forall i j, (i < n)%nat -> (j < n)%nat -> gradient p power (val u) i j == gradient p power (val u) j i /\ 0 <= gradient p power (val u) i j.
Proof using All. intros Hp i j _ _. unfold gradient. split; [apply PW; rewrite Qabs_Qminus; reflexivity|apply PN; [exact Hp|apply Qabs_nonneg]]. Qed.
Lemma max_change u u' : (0 < m)%nat -> length u = m -> length u' = m -> change n (val u) (val u') (fold_right Qmax 0 (map Qabs (vsub u' u))).
Proof using All.
  intros Hm Hu Hu'. set (r := fold_right Qmax 0 (map Qabs (vsub u' u))). destruct (fold_right_max (map Qabs (vsub u' u))) as (M0 & M1 & M2). fold r in M0, M1, M2.
  assert (LV : length (vsub u' u) = m) by (rewrite vsub_length; congruence).
  assert (Hnth : forall b, (b < m)%nat -> Qabs (nth b u' 0 - nth b u 0) <= r).
  { intros b Hb. rewrite <- (Qabs_wd _ _ (vsub_nth u' u b ltac:(congruence))). apply M1. apply in_map, nth_In. lia. }
  split.
  - intros i Hi. unfold val, value. fold us ls. destruct (position us i) as [b|] eqn:EB.
    + apply (position_Some us i b (us_NoDup mask)) in EB as [Hb _]. apply Hnth, Hb.
    + assert (Z : forall q, q - q == 0) by (intros; ring). rewrite (Qabs_wd _ _ (Z _)). exact M0.
  - destruct M2 as [M2|(x & Hx & M2)].
    + exists (nth O us O). split; [apply (us_lt n mask ML); exact Hm|]. rewrite !val_u by exact Hm. apply Qle_antisym; [rewrite M2; apply Qabs_nonneg|apply Hnth, Hm].
    + apply in_map_iff in Hx as (z & <- & Hz). apply (In_nth _ _ 0) in Hz as (b & Hb & <-). rewrite LV in Hb. exists (nth b us O). split; [apply (us_lt n mask ML); exact Hb|].
      rewrite !val_u by exact Hb. rewrite M2. apply Qabs_wd. apply vsub_nth. congruence.
Qed.
Lemma newton_ok : 0 < p - 2 -> (0 < m)%nat -> forall fuel it u ni r w N r', length u = m -> newton power sp uu ul g m fuel it u ni r = (w, N, r') ->
  length w = m /\ exists k, newton_run n mask W eps (pl_cg_tol sp) (pl_tol sp) p power fuel (val u) r k r' (val w) /\
    (k = O -> N = ni /\ fuel = O) /\ ((0 < k)%nat -> N = (it + Z.of_nat k)%Z).
Proof using All.
  intros Hp Hm. induction fuel as [|fuel IH]; intros it u ni r w N r' Hu H; cbn [newton] in H.
  - injection H as <- <- <-. split; [exact Hu|]. exists O. split; [apply run_out|]. split; [auto|lia].
  - cbv zeta in H. destruct (solve_linear sp (weights_uu power sp u uu) (weights_ul power sp u g ul) g m) as [v info] eqn:HV. cbn [fst] in H.
    destruct (solve_balanced n mask E eps ML (gradient p power (val u)) (weights_uu power sp u uu) (weights_ul power sp u g ul) (newton_src_uu u) (newton_src_ul u) (newton_wt_uu u) (newton_wt_ul u) EP WS (gradient_sym u Hp) g _ _ v info CT CM HV) as (Lv & Bv & _).
    fold p in H. set (u' := vadd (vscale ((p - 2) / (p - 1)) u) (vscale (1 / (p - 1)) v)) in *.
    assert (Lu' : length u' = m) by (apply next_length; assumption).
    assert (RD : newton_round n mask W eps (pl_cg_tol sp) p power (val u) (val u')).
    { exists (val v). split; [|split; [exact Bv|]].
      - intros i Hi Hl. unfold val, value. fold us ls. replace (position us i) with (@None nat); [reflexivity|]. symmetry. apply position_None. intros Hin. apply (us_In n mask ML) in Hin as [_ Hin]. congruence.
      - intros i Hi. unfold val, value. fold us ls. destruct (position us i) as [b|] eqn:EB; [apply next_nth; assumption|].
        set (q := match position ls i with Some a => nth a g 0 | None => 0 end). field. lra. }
    assert (CH := max_change u u' Hm Hu Lu'). set (rr := fold_right Qmax 0 (map Qabs (vsub u' u))) in *.
    destruct (Qle_bool rr (pl_tol sp)) eqn:EQ.
    + injection H as <- <- <-. split; [exact Lu'|]. exists 1%nat. split; [apply (run_stop n mask W eps _ _ p power fuel _ _ _ rr); [exact RD|exact CH|apply Qle_bool_iff, EQ]|]. split; [discriminate|lia].
    + destruct (IH (it + 1)%Z u' (it + 1)%Z rr w N r' Lu' H) as (Lw & k & Hrun & K0 & K1). split; [exact Lw|]. exists (S k).
      split; [apply (run_more n mask W eps _ _ p power fuel _ _ (val u') rr); [exact RD|exact CH| |exact Hrun]; apply Qnot_le_lt; intros Hc; apply Qle_bool_iff in Hc; congruence|].
      split; [discriminate|]. intros _. destruct k as [|k]; [destruct (K0 eq_refl) as [-> _]; lia|rewrite K1 by lia; lia].
Qed.
Lemma class_ok (RP : forall x y, x == y -> root x == root y) u N r : (0 < m)%nat -> plap_class root power sp uu ul g m = (u, N, r) ->
  length u = m /\ exists k, learned n mask W eps (pl_cg_tol sp) (pl_tol sp) p power root (Z.to_nat (pl_max_iter sp)) (val []) k r (val u) /\
    (p <= 2 \/ (pl_max_iter sp <= 0)%Z -> (N <= Z.of_nat m)%Z /\ k = O) /\ (2 < p /\ (0 < pl_max_iter sp)%Z -> N = Z.of_nat k).
Proof using All.
  intros Hm H. unfold plap_class in H. destruct (solve_linear sp uu ul g m) as [u0 info] eqn:HV.
  destruct (solve_balanced n mask E eps ML plain uu ul (uu_src mask E) (ul_src mask E) plain_wt_uu plain_wt_ul EP WS ltac:(intros; unfold plain; split; [reflexivity|discriminate]) g _ _ u0 info CT CM HV) as (L0 & B0 & I0 & R0).
  assert (LAB : forall i, (i < n)%nat -> nth i mask false = true -> val u0 i == val [] i).
  { intros i Hi Hl. unfold val, value. fold us ls. replace (position us i) with (@None nat); [reflexivity|]. symmetry. apply position_None. intros Hin. apply (us_In n mask ML) in Hin as [_ Hin]. congruence. }
  assert (RR : root (cg_residual2 info) == root (imbalance n mask W eps plain (val u0))) by (apply RP; exact R0).
  destruct (Qle_bool (pl_p sp) 2) eqn:EP2; cbn [negb] in H.
  - injection H as <- <- <-. apply Qle_bool_iff in EP2. fold p in EP2. split; [exact L0|]. exists O. split; [|split; [intros _; split; [exact I0|reflexivity]|intros [Hc _]; exfalso; lra]].
    exists (val u0), (root (cg_residual2 info)). split; [exact LAB|]. split; [exact B0|]. split; [exact RR|]. left. auto.
  - assert (HP2 : 2 < p) by (apply Qnot_le_lt; intros Hc; apply Qle_bool_iff in Hc; unfold p in Hc; congruence).
    destruct (newton_ok ltac:(lra) Hm _ _ _ _ _ _ _ _ L0 H) as (Lw & k & Hrun & K0 & K1). split; [exact Lw|]. exists k. split; [|split].
    + exists (val u0), (root (cg_residual2 info)). split; [exact LAB|]. split; [exact B0|]. split; [exact RR|]. right. auto.
    + intros [Hc|Hc]; [exfalso; lra|]. assert (Ef : Z.to_nat (pl_max_iter sp) = O) by lia. rewrite Ef in Hrun. inversion Hrun; subst. split; [rewrite (proj1 (K0 eq_refl)); exact I0|reflexivity].
    + intros [_ Hc]. destruct k as [|k]; [destruct (K0 eq_refl); lia|]. rewrite K1 by lia. lia.
Qed.
End Newton.

(* ---- other weights with the same values *)
Section Weights.
Variables (n : nat) (mask : list bool) (W W' : nat -> nat -> Q) (eps cg_tol tol p : Q) (power : Q -> Q -> Q).
Hypothesis HW : forall i j, W i j == W' i j.
Lemma outflow_weights s v i : outflow n W eps s v i == outflow n W' eps s v i.
Proof. unfold outflow. rewrite (over_ext n _ (fun j => W' i j * s i j * (v i - v j))) by (intros j _; rewrite (HW i j); reflexivity). reflexivity. Qed.
Lemma imbalance_weights s v : imbalance n mask W eps s v == imbalance n mask W' eps s v.
Proof. apply Qsum_ext. intros i _. rewrite (outflow_weights s v i). reflexivity. Qed.
Lemma round_weights v v' : newton_round n mask W eps cg_tol p power v v' -> newton_round n mask W' eps cg_tol p power v v'.
Proof. intros (s & H1 & H2 & H3). exists s. split; [exact H1|]. split; [rewrite <- (imbalance_weights (gradient p power v) s); exact H2|exact H3]. Qed.
Lemma run_weights f v r0 k r w : newton_run n mask W eps cg_tol tol p power f v r0 k r w -> newton_run n mask W' eps cg_tol tol p power f v r0 k r w.
Proof. induction 1; [apply run_out|eapply run_stop; eauto using round_weights|eapply run_more; eauto using round_weights]. Qed.
Lemma learned_weights root mi label k r w : (forall x y, x == y -> root x == root y) ->
  learned n mask W eps cg_tol tol p power root mi label k r w -> learned n mask W' eps cg_tol tol p power root mi label k r w.
Proof.
  intros RP (v & r0 & H1 & H2 & H3 & H4). exists v, r0. split; [exact H1|]. split; [rewrite <- (imbalance_weights plain v); exact H2|]. split; [rewrite H3; apply RP, imbalance_weights|].
  destruct H4 as [H4|[H4 H5]]; [left; exact H4|right]. split; [exact H4|apply run_weights, H5].
Qed.
Lemma reached_weights i : reached n mask W i -> reached n mask W' i.
Proof. induction 1 as [i H|i j Hj Hz _ IH]; [apply reached_label, H|apply (reached_step n mask W' i j Hj); [rewrite <- (HW i j); exact Hz|exact IH]]. Qed.
End Weights.
Lemma learned_labels n mask W eps cg_tol tol p power root mi label label' k r w : (forall i, (i < n)%nat -> nth i mask false = true -> label i == label' i) ->
  learned n mask W eps cg_tol tol p power root mi label k r w -> learned n mask W eps cg_tol tol p power root mi label' k r w.
Proof. intros HL (v & r0 & H1 & H2). exists v, r0. split; [intros i Hi Hm; rewrite (H1 i Hi Hm); apply HL; assumption|exact H2]. Qed.

(* ---- what follows from the equations *)
Section Principle.
Variables (n : nat) (mask : list bool) (W : nat -> nat -> Q) (eps : Q).
Hypothesis WN : forall i j, (i < n)%nat -> (j < n)%nat -> 0 <= W i j.
Hypothesis EP : 0 < eps.
Lemma imbalance_zero s v : imbalance n mask W eps s v <= 0 -> forall i, (i < n)%nat -> nth i mask false = false -> outflow n W eps s v i == 0.
Proof using All.
  unfold imbalance. intros H i Hi Hm. assert (Hin : In i (unlabelled n mask)) by (unfold unlabelled; apply filter_In; split; [apply in_seq; lia|rewrite Hm; reflexivity]).
  assert (SQ : forall q : Q, 0 <= q * q) by (intros q; nra).
  assert (Hz : outflow n W eps s v i * outflow n W eps s v i == 0).
  { apply (Qsum_zero_inv (map (fun i => outflow n W eps s v i * outflow n W eps s v i) (unlabelled n mask))).
    - intros x Hx. apply in_map_iff in Hx as (j & <- & _). apply SQ.
    - apply Qle_antisym; [exact H|]. apply Qsum_nonneg. intros x Hx. apply in_map_iff in Hx as (j & <- & _). apply SQ.
    - apply (in_map (fun i => outflow n W eps s v i * outflow n W eps s v i)), Hin. }
  apply Qmult_integral in Hz. tauto.
Qed.
Lemma below s v hi : (forall i j, (i < n)%nat -> (j < n)%nat -> 0 <= s i j) -> 0 <= hi -> (forall i, (i < n)%nat -> nth i mask false = true -> v i <= hi) ->
  (forall i, (i < n)%nat -> nth i mask false = false -> outflow n W eps s v i == 0) -> forall i, (i < n)%nat -> v i <= hi.
Proof using All.
  intros SN H0 HL HO i Hi. destruct (argmin (fun j => - v j) (seq 0 n)) as (a & Ha & Hmin); [destruct n; [lia|discriminate]|]. apply in_seq in Ha.
  assert (Hmax : forall j, (j < n)%nat -> v j <= v a) by (intros j Hj; specialize (Hmin j ltac:(apply in_seq; lia)); cbn beta in Hmin; lra).
  apply Qle_trans with (v a); [apply Hmax, Hi|]. destruct (nth a mask false) eqn:Em; [apply HL; [lia|exact Em]|].
  specialize (HO a ltac:(lia) Em). unfold outflow in HO.
  assert (HS : 0 <= over_nodes n (fun j => W a j * s a j * (v a - v j))).
  { apply Qsum_nonneg. intros x Hx. apply in_map_iff in Hx as (j & <- & Hj). apply in_seq in Hj. specialize (Hmax j ltac:(lia)). apply Qmult_le_0_compat; [apply Qmult_le_0_compat; [apply WN|apply SN]; lia|lra]. }
  assert (HV : v a <= 0); [|lra]. apply Qnot_lt_le. intros Hp. assert (0 < eps * v a) by (apply Qmult_lt_0_compat; assumption). lra.
Qed.
Lemma outflow_opp s v i : outflow n W eps s (fun j => - v j) i == - outflow n W eps s v i.
Proof using All.
  unfold outflow. rewrite (over_ext n _ (fun j => 0 + (-1) * (W i j * s i j * (v i - v j)))) by (intros; ring). rewrite over_linear.
  assert (Z : over_nodes n (fun _ => 0) == 0) by (apply Qsum_zero; reflexivity). rewrite Z. ring.
Qed.
Lemma outflow_minus s v w i : outflow n W eps s (fun j => v j - w j) i == outflow n W eps s v i - outflow n W eps s w i.
Proof using All.
  unfold outflow. rewrite (over_ext n _ (fun j => W i j * s i j * (v i - v j) + (-1) * (W i j * s i j * (w i - w j)))) by (intros; ring). rewrite over_linear. ring.
Qed.
Lemma above s v : (forall i j, (i < n)%nat -> (j < n)%nat -> 0 <= s i j) -> (forall i, (i < n)%nat -> nth i mask false = true -> 0 <= v i) ->
  (forall i, (i < n)%nat -> nth i mask false = false -> outflow n W eps s v i == 0) -> forall i, (i < n)%nat -> 0 <= v i.
Proof using All.
  intros SN HL HO i Hi. assert (H := below s (fun j => - v j) 0 SN ltac:(lra) ltac:(intros j Hj Hm; cbn beta; specialize (HL j Hj Hm); lra) ltac:(intros j Hj Hm; rewrite outflow_opp, (HO j Hj Hm); reflexivity) i Hi). cbn beta in H. lra.
Qed.
Definition within (v : nat -> Q) : Prop := forall i, (i < n)%nat -> 0 <= v i <= 1.
Lemma balanced_within s v : (forall i j, (i < n)%nat -> (j < n)%nat -> 0 <= s i j) -> (forall i, (i < n)%nat -> nth i mask false = true -> 0 <= v i <= 1) ->
  imbalance n mask W eps s v <= 0 -> within v.
Proof using All.
  intros SN HL HI i Hi. assert (HO := imbalance_zero s v HI). split; [apply (above s v SN ltac:(intros; apply HL; assumption) HO i Hi)|apply (below s v 1 SN ltac:(lra) ltac:(intros; apply HL; assumption) HO i Hi)].
Qed.
Lemma balanced_unique s v w : (forall i j, (i < n)%nat -> (j < n)%nat -> 0 <= s i j) -> (forall i, (i < n)%nat -> nth i mask false = true -> v i == w i) ->
  (forall i, (i < n)%nat -> nth i mask false = false -> outflow n W eps s v i == 0) ->
  (forall i, (i < n)%nat -> nth i mask false = false -> outflow n W eps s w i == 0) -> forall i, (i < n)%nat -> v i == w i.
Proof using All.
  intros SN HL HV HW i Hi.
  assert (A := below s (fun j => v j - w j) 0 SN ltac:(lra) ltac:(intros j Hj Hm; cbn beta; rewrite (HL j Hj Hm); lra) ltac:(intros j Hj Hm; rewrite outflow_minus, (HV j Hj Hm), (HW j Hj Hm); ring) i Hi).
  assert (B := above s (fun j => v j - w j) SN ltac:(intros j Hj Hm; cbn beta; rewrite (HL j Hj Hm); lra) ltac:(intros j Hj Hm; rewrite outflow_minus, (HV j Hj Hm), (HW j Hj Hm); ring) i Hi). cbn beta in A, B. lra.
Qed.
Variables (tol p : Q) (power : Q -> Q -> Q).
Hypothesis PO : power_ok power.
Lemma gradient_nonneg v : 2 < p -> forall i j, 0 <= gradient p power v i j.
Proof using All. intros Hp i j. apply (proj2 PO); [lra|apply Qabs_nonneg]. Qed.
Lemma round_within v v' : 2 < p -> newton_round n mask W eps 0 p power v v' -> within v -> within v'.
Proof using All.
  intros Hp (s & HL & HI & HN) Hv i Hi. assert (Hs : within s).
  { apply (balanced_within (gradient p power v)); [intros; apply gradient_nonneg, Hp|intros j Hj Hm; rewrite (HL j Hj Hm); apply Hv, Hj|lra]. }
  rewrite (HN i Hi). destruct (Hv i Hi), (Hs i Hi). assert (A : 0 <= 1 / (p - 1)) by (apply Qle_shift_div_l; lra). assert (B : 0 <= (p - 2) / (p - 1)) by (apply Qle_shift_div_l; lra).
  assert (C : (p - 2) / (p - 1) == 1 - 1 / (p - 1)) by (field; lra). set (t := 1 / (p - 1)) in *. rewrite C in *. clearbody t. split; nra.
Qed.
Lemma round_labels v v' : 2 < p -> newton_round n mask W eps 0 p power v v' -> forall i, (i < n)%nat -> nth i mask false = true -> v' i == v i.
Proof using All. intros Hp (s & HL & _ & HN) i Hi Hm. rewrite (HN i Hi), (HL i Hi Hm). field. lra. Qed.
Lemma run_within f v r0 k r w : 2 < p -> newton_run n mask W eps 0 tol p power f v r0 k r w -> within v -> within w.
Proof using All. intros Hp H. induction H; intros Hv; [exact Hv|eapply round_within; eassumption|apply IHnewton_run; eapply round_within; eassumption]. Qed.
Lemma learned_within root mi label k r w : (forall i, (i < n)%nat -> 0 <= label i <= 1) -> learned n mask W eps 0 tol p power root mi label k r w -> within w.
Proof using All.
  intros HL (v & r0 & H1 & H2 & _ & H4). assert (Hv : within v).
  { apply (balanced_within plain); [intros; unfold plain; discriminate|intros i Hi Hm; rewrite (H1 i Hi Hm); apply HL, Hi|lra]. }
  destruct H4 as [(_ & _ & _ & ->)|[Hp H4]]; [exact Hv|]. eapply run_within; eassumption.
Qed.
(* a round that changes nothing has solved the p-Laplace equation *)
Lemma round_fixed v v' : 2 < p -> newton_round n mask W eps 0 p power v v' -> (forall i, (i < n)%nat -> v' i == v i) ->
  forall i, (i < n)%nat -> nth i mask false = false -> outflow n W eps (gradient p power v') v' i == 0.
Proof using All.
  intros Hp (s & HL & HI & HN) Hf i Hi Hm. assert (Hs : forall j, (j < n)%nat -> s j == v j).
  { intros j Hj. specialize (HN j Hj). rewrite (Hf j Hj) in HN. assert (C : (p - 2) / (p - 1) == 1 - 1 / (p - 1)) by (field; lra). rewrite C in HN. assert (0 < 1 / (p - 1)) by (apply Qlt_shift_div_l; lra). set (t := 1 / (p - 1)) in *. clearbody t.
    assert (D : t * (s j - v j) == 0) by lra. apply Qmult_integral in D. lra. }
  assert (HO := imbalance_zero (gradient p power v) s ltac:(lra) i Hi Hm). unfold outflow in *.
  assert (X : over_nodes n (fun j => W i j * gradient p power v' i j * (v' i - v' j)) == over_nodes n (fun j => W i j * gradient p power v i j * (s i - s j))); [|rewrite X, (Hf i Hi), <- (Hs i Hi); exact HO].
  apply over_ext. intros j Hj. rewrite (Hs j Hj), (Hs i Hi). unfold gradient. rewrite (proj1 PO (p - 2) _ (Qabs (v i - v j))); [rewrite (Hf i Hi), (Hf j Hj); reflexivity|]. apply Qabs_wd. rewrite (Hf i Hi), (Hf j Hj). reflexivity.
Qed.
Lemma run_fixed f v r0 k r w : 2 < p -> newton_run n mask W eps 0 tol p power f v r0 k r w -> r == 0 -> (0 < k)%nat ->
  forall i, (i < n)%nat -> nth i mask false = false -> outflow n W eps (gradient p power w) w i == 0.
Proof using All.
  assert (STOP : forall v v' r, 2 < p -> newton_round n mask W eps 0 p power v v' -> change n v v' r -> r == 0 ->
    forall i, (i < n)%nat -> nth i mask false = false -> outflow n W eps (gradient p power v') v' i == 0).
  { intros v0 v' r1 Hp HR HC Hr. eapply round_fixed; [exact Hp|exact HR|]. intros j Hj. destruct HC as [HC _]. specialize (HC j Hj). cbn beta in HC. rewrite Hr in HC. revert HC. apply Qabs_case; intros; lra. }
  intros Hp H. induction H as [v r0|f v r0 v' r HR HC Ht|f v r0 v' r k r' w HR HC Ht Hrun IH]; intros Hr Hk; [lia|eapply STOP; eassumption|].
  destruct k as [|k]; [|apply IH; [exact Hr|lia]]. inversion Hrun; subst. eapply STOP; eassumption.
Qed.
End Principle.

(* ---- the softmax of a row *)
Lemma row_max_spec r : r <> [] -> (forall x, In x r -> x <= row_max r) /\ exists x, In x r /\ row_max r == x.
Proof.
  destruct r as [|a r]; [congruence|]. intros _. cbn [row_max]. induction r as [|b r (IH1 & x & IH2 & IH3)]; cbn [fold_right].
  - split; [intros x [->|[]]; apply Qle_refl|exists a; split; [now left|reflexivity]].
  - split.
    + intros z [->|[->|Hz]]; [apply Qle_trans with (fold_right Qmax z r); [apply IH1; now left|apply Q.le_max_r]|apply Q.le_max_l|apply Qle_trans with (fold_right Qmax a r); [apply IH1; now right|apply Q.le_max_r]].
    + destruct (Q.max_spec b (fold_right Qmax a r)) as [[_ Hm]|[_ Hm]]; [|exists b; split; [right; now left|exact Hm]].
      exists x. split; [destruct IH2 as [->|IH2]; [now left|right; now right]|rewrite Hm; exact IH3].
Qed.
Section Soft.
Variables (ex : Q -> Q) (tiny : Q).
Hypothesis EO : exp_ok ex.
Hypothesis TT : tiny <= 1.
Variables (k : nat) (score : nat -> Q).
Hypothesis KP : (0 < k)%nat.
Let r := map score (seq 0 k).
Let e c := ex (score c - row_max r).
Let s := sum_classes k e.
Lemma soft_sum : 1 <= s.
Proof using All.
  destruct EO as (E0 & EPos & _ & EX). destruct (row_max_spec r) as (_ & x & Hx & HM); [unfold r; destruct k; [lia|discriminate]|]. apply in_map_iff in Hx as (c & <- & Hc).
  unfold s, sum_classes. apply Qle_trans with (e c).
  - unfold e. rewrite (EX (score c - row_max r) 0) by (rewrite HM; ring). rewrite E0. apply Qle_refl.
  - assert (H : forall l, In c l -> e c <= Qsum (map e l)); [|apply H, Hc]. induction l as [|d l IH]; intros []; cbn [map]; rewrite Qsum_cons.
    + subst d. assert (0 <= Qsum (map e l)); [|lra]. apply Qsum_nonneg. intros x Hx. apply in_map_iff in Hx as (d & <- & _). apply Qlt_le_weak, EPos.
    + specialize (IH H). assert (0 < e d) by apply EPos. lra.
Qed.
Lemma soft_nth c : (c < k)%nat -> nth c (softmax ex tiny r) 0 == e c / s.
Proof using All.
  intros Hc. unfold softmax. cbv zeta. assert (HE : map (fun x => ex (x - row_max r)) r = map e (seq 0 k)) by (unfold r at 2; rewrite map_map; reflexivity). rewrite HE.
  rewrite (nth_map_in _ _ c 0) by (rewrite map_length, seq_length; exact Hc). rewrite (nth_map_in e _ c O) by (rewrite seq_length; exact Hc). rewrite seq_nth by exact Hc. cbn [Nat.add].
  fold (sum_classes k e). fold s. assert (HS := soft_sum). rewrite (Q.max_l s tiny) by lra. reflexivity.
Qed.
Lemma soft_follows : follows k (fun c => nth c (softmax ex tiny r) 0) score.
Proof using All.
  destruct EO as (E0 & EPos & EM & EX). assert (HS := soft_sum). split; [|split].
  - intros c Hc. rewrite (soft_nth c Hc). apply Qlt_shift_div_l; [lra|]. rewrite Qmult_0_l. apply EPos.
  - unfold sum_classes. rewrite (Qsum_ext _ (fun c => e c * / s)) by (intros c Hc; apply in_seq in Hc; apply soft_nth; lia). rewrite Qsum_scale_r. fold (sum_classes k e). fold s. apply Qmult_inv_r. lra.
  - intros c d Hc Hd. rewrite (soft_nth c Hc), (soft_nth d Hd).
    assert (MONO : forall a b, score a < score b -> e a / s < e b / s).
    { intros a b Hab. unfold Qdiv. apply Qmult_lt_r; [apply Qinv_lt_0_compat; lra|]. apply EM. lra. }
    split; [|apply MONO]. intros H. destruct (Q_dec (score c) (score d)) as [[Hl|Hg]|He]; [exact Hl| |]; exfalso.
    + specialize (MONO d c Hg). lra.
    + assert (EQ : e c == e d) by (apply EX; rewrite He; reflexivity). rewrite EQ in H. lra.
Qed.
Lemma soft_uniform : (forall c, (c < k)%nat -> score c == 0) -> forall c, (c < k)%nat -> nth c (softmax ex tiny r) 0 == 1 / inject_Z (Z.of_nat k).
Proof using All.
  intros H0 c Hc. rewrite (soft_nth c Hc). destruct EO as (E0 & _ & _ & EX).
  assert (HM : row_max r == 0).
  { destruct (row_max_spec r) as (_ & x & Hx & HM); [unfold r; destruct k; [lia|discriminate]|]. apply in_map_iff in Hx as (d & <- & Hd). apply in_seq in Hd. rewrite HM. apply H0. lia. }
  assert (H1 : forall d, (d < k)%nat -> e d == 1) by (intros d Hd; unfold e; rewrite <- E0; apply EX; rewrite HM, (H0 d Hd); ring).
  rewrite (H1 c Hc). unfold s, sum_classes. rewrite (Qsum_ext e (fun _ => 1) (seq 0 k)) by (intros d Hd; apply in_seq in Hd; apply H1; lia).
  assert (HK : Qsum (map (fun _ : nat => 1) (seq 0 k)) == inject_Z (Z.of_nat k)).
  { clear. generalize 0%nat. induction k as [|j IH]; intros a; [reflexivity|]. cbn [seq map]. rewrite Qsum_cons, IH, Nat2Z.inj_succ. unfold Z.succ. rewrite inject_Z_plus. ring. }
  rewrite HK. reflexivity.
Qed.
End Soft.

(* ---- the largest over the classes *)
Lemma fold_left_Zmax l : forall a, (a <= fold_left Z.max l a)%Z /\ (forall x, In x l -> (x <= fold_left Z.max l a)%Z) /\ (fold_left Z.max l a = a \/ In (fold_left Z.max l a) l).
Proof.
  induction l as [|b l IH]; intros a; cbn [fold_left]; [split; [lia|split; [intros x []|now left]]|]. destruct (IH (Z.max a b)) as (H1 & H2 & H3). split; [lia|]. split; [intros x [->|Hx]; [lia|apply H2, Hx]|].
  destruct H3 as [H3|H3]; [|right; now right]. rewrite H3. destruct (Z.max_spec a b) as [[_ ->]|[_ ->]]; [right; now left|now left].
Qed.
Lemma fold_left_Qmax l : forall a, a <= fold_left Qmax l a /\ (forall x, In x l -> x <= fold_left Qmax l a) /\ (fold_left Qmax l a == a \/ exists x, In x l /\ fold_left Qmax l a == x).
Proof.
  induction l as [|b l IH]; intros a; cbn [fold_left]; [split; [lra|split; [intros x []|left; reflexivity]]|]. destruct (IH (Qmax a b)) as (H1 & H2 & H3). assert (M1 := Q.le_max_l a b). assert (M2 := Q.le_max_r a b).
  split; [lra|]. split; [intros x [->|Hx]; [lra|apply H2, Hx]|].
  destruct H3 as [H3|(x & Hx & H3)]; [|right; exists x; split; [now right|exact H3]]. destruct (Q.max_spec a b) as [[_ Hm]|[_ Hm]]; [right; exists b; split; [now left|apply (Qeq_trans _ _ _ H3 Hm)]|left; apply (Qeq_trans _ _ _ H3 Hm)].
Qed.
Lemma largest_Q k (f : nat -> Q) : (0 < k)%nat -> (forall c, (c < k)%nat -> 0 <= f c) -> largest_of k f (fold_left Qmax (map f (seq 0 k)) 0).
Proof.
  intros Hk Hf. destruct (fold_left_Qmax (map f (seq 0 k)) 0) as (H1 & H2 & H3).
  assert (HB : forall c, (c < k)%nat -> f c <= fold_left Qmax (map f (seq 0 k)) 0) by (intros c Hc; apply H2, in_map, in_seq; lia).
  split; [exact HB|]. destruct H3 as [H3|(x & Hx & H3)].
  - exists O. split; [exact Hk|]. specialize (HB O Hk). specialize (Hf O Hk). lra.
  - apply in_map_iff in Hx as (c & <- & Hc). apply in_seq in Hc. exists c. split; [lia|exact H3].
Qed.

(* ---- the whole run *)
Lemma kz_range y : filter (fun v => (v >=? 0)%Z) y <> [] -> (fold_right Z.max 0 (filter (fun v => (v >=? 0)%Z) y) + 1)%Z = infer_num_classes y.
Proof.
  intros H. unfold infer_num_classes. destruct (filter _ y) as [|a l] eqn:E; [congruence|]. assert (Ha : (0 <= a)%Z) by (assert (X : In a (filter (fun v => (v >=? 0)%Z) y)) by (rewrite E; now left); apply filter_In in X; lia). cbn [fold_right]. lia.
Qed.
Lemma range_unique y k k' : class_range y k -> class_range y k' -> k = k'.
Proof.
  intros (A1 & A2 & A3) (B1 & B2 & B3). destruct A3 as [->|A3], B3 as [->|B3]; try reflexivity.
  - specialize (A2 _ B3). lia.
  - specialize (B2 _ A3). lia.
  - specialize (A2 _ B3). specialize (B2 _ A3). lia.
Qed.
Lemma shown_counts y mask kz : length mask = length y ->
  (existsb (fun c => (countZ c (filter (fun v => (v >=? 0)%Z) (masked mask y)) =? 0)%Z) (arange kz) = false <-> all_shown y mask (Z.to_nat kz)).
Proof.
  intros Hl. split.
  - intros H c Hc. destruct (Z.eqb_spec (countZ (Z.of_nat c) (filter (fun v => (v >=? 0)%Z) (masked mask y))) 0) as [Hz|Hz].
    + exfalso. assert (X : existsb (fun c => (countZ c (filter (fun v => (v >=? 0)%Z) (masked mask y)) =? 0)%Z) (arange kz) = true); [|congruence].
      apply existsb_exists. exists (Z.of_nat c). split; [apply arange_In; lia|]. apply Z.eqb_eq, Hz.
    + assert (P : (0 < countZ (Z.of_nat c) (filter (fun v => (v >=? 0)%Z) (masked mask y)))%Z) by (pose proof (countZ_nonneg (Z.of_nat c) (filter (fun v => (v >=? 0)%Z) (masked mask y))); lia).
      apply countZ_pos, filter_In in P as [P _]. apply masked_shown in P; [exact P|lia].
  - intros H. apply not_true_is_false. intros X. apply existsb_exists in X as (c & Hc & X). apply arange_In in Hc. destruct (H (Z.to_nat c) ltac:(lia)) as (i & Hi & Hy). rewrite Z2Nat.id in Hy by lia.
    assert (P : In c (filter (fun v => (v >=? 0)%Z) (masked mask y))) by (apply filter_In; split; [apply masked_shown; [lia|eauto]|lia]). apply countZ_pos in P. lia.
Qed.
Section Whole.
Variables (root : Q -> Q) (power : Q -> Q -> Q) (ex : Q -> Q) (tiny : Q) (sp : plap_spec).
Variables (n : Z) (ei : list (Z * Z)) (weight : option (list Q)).
Definition run_of E0 (y : list Z) (mask : list bool) (c : nat) : vec * Z * Q :=
  let E := plap_edges n (pl_symmetrize sp) (pl_zero_diagonal sp) E0 in
  let us := flatnonzero (map negb mask) in let ls := flatnonzero mask in
  plap_class root power sp (arcs us us E) (arcs ls us E) (map (fun i => target y mask i c) ls) (length us).
Definition scores_of E0 y mask (i c : nat) : Q :=
  match position (flatnonzero (map negb mask)) i with Some b => nth b (fst (fst (run_of E0 y mask c))) 0 | None => target y mask i c end.
Lemma target_col y mask c : length y = Z.to_nat n -> length mask = Z.to_nat n -> forall k, (c < k)%nat ->
  map (fun i => entry (zero_unlabelled mask (map (onehot_row k) y)) i c) (flatnonzero mask) = map (fun i => target y mask i c) (flatnonzero mask).
Proof.
  intros Hy Hm k Hc. apply map_ext_in. intros i Hi. apply flatnonzero_In in Hi. apply label_entry; [lia| |exact Hc]. destruct (Nat.lt_ge_cases i (length mask)) as [|Hge]; [lia|]. rewrite nth_overflow in Hi by lia. discriminate.
Qed.
Lemma plap_run y mask r : p_laplace root power ex tiny sp n ei weight y mask = Ok r ->
  exists E0 k, validate_graph n ei weight = Ok E0 /\ 2 <= pl_p sp /\ length y = Z.to_nat n /\ length mask = Z.to_nat n /\ class_range y k /\ all_shown y mask k /\
    let us := flatnonzero (map negb mask) in
    ((us = [] /\ r = {| pl_F := zero_unlabelled mask (map (onehot_row k) y); pl_iter := 0; pl_residual := 0 |}) \/
     (us <> [] /\ arcs (flatnonzero mask) us (plap_edges n (pl_symmetrize sp) (pl_zero_diagonal sp) E0) <> [] /\
      r = {| pl_F := map (fun i => match position us i with
                                   | Some b => softmax ex tiny (map (fun c => nth b (fst (fst (run_of E0 y mask c))) 0) (seq 0 k))
                                   | None => nth i (zero_unlabelled mask (map (onehot_row k) y)) []
                                   end) (seq 0 (Z.to_nat n));
             pl_iter := fold_left Z.max (map (fun c => snd (fst (run_of E0 y mask c))) (seq 0 k)) 0%Z;
             pl_residual := fold_left Qmax (map (fun c => snd (run_of E0 y mask c)) (seq 0 k)) 0 |})).
Proof.
  unfold p_laplace. intros H. destruct (Qle_bool 2 (pl_p sp)) eqn:EP; cbn [negb] in H; [|discriminate]. apply Qle_bool_iff in EP. inv_bind H. rename a into E0. cbv zeta in H.
  destruct (lenZ y =? n)%Z eqn:E1; cbn [negb] in H; [|discriminate]. destruct (lenZ mask =? n)%Z eqn:E2; cbn [negb] in H; [|discriminate]. destruct (existsb (fun b => b) mask) eqn:E3; cbn [negb] in H; [|discriminate].
  assert (Ly : length y = Z.to_nat n) by (unfold lenZ in E1; lia). assert (Lm : length mask = Z.to_nat n) by (unfold lenZ in E2; lia).
  destruct (filter (fun v => (v >=? 0)%Z) y) as [|v0 vs] eqn:EV; [discriminate|]. rewrite <- EV in H. rewrite (kz_range y) in H by congruence.
  destruct (existsb _ (arange _)) eqn:E4; [discriminate|]. inv_bind H. apply onehot_ok in E5 as (Hk & Hlt & ->). set (k := Z.to_nat (infer_num_classes y)) in *.
  exists E0, k. split; [exact E|]. split; [exact EP|]. split; [exact Ly|]. split; [exact Lm|]. split; [apply infer_class_range|]. split; [apply shown_counts; [lia|exact E4]|]. cbv zeta.
  destruct (flatnonzero (map negb mask)) as [|u0 us0] eqn:EU; [left; split; [reflexivity|injection H as <-; reflexivity]|]. right. split; [discriminate|]. rewrite <- EU in *.
  destruct (arcs (flatnonzero mask) (flatnonzero (map negb mask)) _) as [|a0 as0] eqn:EA; [discriminate|]. split; [discriminate|]. injection H as <-. rewrite <- EA.
  assert (HR : map (fun c => plap_class root power sp (arcs (flatnonzero (map negb mask)) (flatnonzero (map negb mask)) (plap_edges n (pl_symmetrize sp) (pl_zero_diagonal sp) E0))
     (arcs (flatnonzero mask) (flatnonzero (map negb mask)) (plap_edges n (pl_symmetrize sp) (pl_zero_diagonal sp) E0))
     (map (fun i => entry (zero_unlabelled mask (map (onehot_row k) y)) i c) (flatnonzero mask)) (length (flatnonzero (map negb mask)))) (seq 0 k) = map (run_of E0 y mask) (seq 0 k)).
  { apply map_ext_in. intros c Hc. apply in_seq in Hc. unfold run_of. cbv zeta. f_equal. apply target_col; auto; lia. }
  rewrite HR. f_equal; [|rewrite map_map; reflexivity|rewrite map_map; reflexivity]. apply map_ext. intros i. destruct (position _ i); [|reflexivity]. rewrite map_map. reflexivity.
Qed.
End Whole.
(* ---- when it returns *)
Lemma arcs_nonempty from to E : arcs from to E <> [] <-> exists e, In e E /\ In (Z.to_nat (e_src e)) from /\ In (Z.to_nat (e_dst e)) to.
Proof.
  split.
  - intros H. destruct (arcs from to E) as [|x xs] eqn:EA; [congruence|]. assert (Hx : In x (arcs from to E)) by (rewrite EA; now left). unfold arcs in Hx. apply in_flat_map in Hx as (e & He & Hx).
    exists e. split; [exact He|]. destruct (position from (Z.to_nat (e_src e))) as [a|] eqn:EA1; [|destruct Hx]. destruct (position to (Z.to_nat (e_dst e))) as [b|] eqn:EB1; [|destruct Hx].
    split; [destruct (in_dec Nat.eq_dec (Z.to_nat (e_src e)) from) as [|Hn]|destruct (in_dec Nat.eq_dec (Z.to_nat (e_dst e)) to) as [|Hn]]; try assumption; apply position_None in Hn; congruence.
  - intros (e & He & Hs & Hd) H. destruct (position_In from _ Hs) as (a & Ha). destruct (position_In to _ Hd) as (b & Hb).
    assert (X : In (a, b, e_w e) (arcs from to E)) by (unfold arcs; apply in_flat_map; exists e; split; [exact He|rewrite Ha, Hb; now left]). rewrite H in X. destruct X.
Qed.
Lemma coalesce_In n E s d : in_range (Z.to_nat n) E -> ((exists e, In e (coalesce n E) /\ e_src e = s /\ e_dst e = d) <-> (exists e, In e E /\ e_src e = s /\ e_dst e = d)).
Proof.
  intros HR. split.
  - intros (e & He & <- & <-). unfold coalesce in He. apply in_map_iff in He as (k & <- & Hk). apply (proj1 (uniqueZ_In _ _)) in Hk. apply in_map_iff in Hk as (e0 & <- & He0).
    destruct (HR e0 He0) as [R1 R2]. destruct (key_back n e0) as [B1 B2]; [lia|lia|]. exists e0. cbn [e_src e_dst fst snd]. auto.
  - intros (e & He & <- & <-). destruct (HR e He) as [R1 R2]. destruct (key_back n e) as [B1 B2]; [lia|lia|].
    eexists. split; [unfold coalesce; apply in_map; apply (proj2 (uniqueZ_In _ _)); apply (in_map (key n)), He|]. cbn [e_src e_dst fst snd]. rewrite B1, B2. auto.
Qed.
Lemma plap_edges_In n sym zero E s d : in_range (Z.to_nat n) E -> s <> d ->
  ((exists e, In e (plap_edges n sym zero E) /\ e_src e = s /\ e_dst e = d) <-> (exists e, In e E /\ ((e_src e = s /\ e_dst e = d) \/ (sym = true /\ e_src e = d /\ e_dst e = s)))).
Proof.
  intros HR Hsd. unfold plap_edges. cbv zeta.
  assert (HZ : forall G, (exists e, In e (if zero then without_loops G else G) /\ e_src e = s /\ e_dst e = d) <-> (exists e, In e G /\ e_src e = s /\ e_dst e = d)).
  { intros G. destruct zero; [|reflexivity]. unfold without_loops. split; intros (e & He & H1 & H2); exists e.
    - apply filter_In in He as [He _]. auto.
    - split; [|auto]. apply filter_In. split; [exact He|]. destruct (Z.eqb_spec (e_src e) (e_dst e)); [congruence|reflexivity]. }
  rewrite HZ. clear HZ. destruct sym.
  - rewrite coalesce_In.
    + split.
      * intros (e & He & H1 & H2). apply in_app_iff in He as [He|He]; [exists e; auto|]. apply in_map_iff in He as (e0 & <- & He0). cbn in H1, H2. exists e0. auto.
      * intros (e & He & [[H1 H2]|(_ & H1 & H2)]); [exists e; split; [apply in_app_iff; now left|auto]|]. exists (e_dst e, e_src e, e_w e). split; [apply in_app_iff; right; apply (in_map (fun e => (e_dst e, e_src e, e_w e))), He|]. cbn. auto.
    + intros e He. apply in_app_iff in He as [He|He]; [apply HR, He|]. apply in_map_iff in He as (e0 & <- & He0). destruct (HR e0 He0). cbn. auto.
  - split; intros (e & He & H); exists e; intuition discriminate.
Qed.
Lemma crossing_iff n sym zero ei weight E0 mask : validate_graph n ei weight = Ok E0 -> length mask = Z.to_nat n ->
  (arcs (flatnonzero mask) (flatnonzero (map negb mask)) (plap_edges n sym zero E0) <> [] <-> crossing sym ei mask).
Proof.
  intros HV Hm. destruct (validate_graph_ok _ _ _ _ HV) as (Hn & HR & HE & HL & _). set (w := match weight with None => map (fun _ => 1) ei | Some l => l end) in *.
  assert (HI : forall a b, In (a, b) ei <-> exists e, In e E0 /\ e_src e = a /\ e_dst e = b).
  { intros a b. rewrite HE. split.
    - intros Hin. apply (In_nth _ _ (0, 0)%Z) in Hin as (j & Hj & Hn0). exists (nth j (combine ei w) (0%Z, 0%Z, 0)). rewrite combine_nth by lia. rewrite Hn0. split; [|split; reflexivity].
      rewrite <- Hn0. rewrite <- combine_nth by lia. apply nth_In. rewrite combine_length. lia.
    - intros ([[a' b'] q] & He & <- & <-). cbn. apply in_combine_l in He. exact He. }
  rewrite arcs_nonempty. split.
  - intros (e & He & Hs & Hd). apply flatnonzero_In in Hs. apply (us_In (Z.to_nat n) mask Hm) in Hd as [_ Hd].
    assert (Hsd : e_src e <> e_dst e) by (intros X; rewrite X in Hs; congruence).
    destruct (proj1 (plap_edges_In n sym zero E0 (e_src e) (e_dst e) HR Hsd) ltac:(eauto)) as (e0 & He0 & [[H1 H2]|(Hsy & H1 & H2)]).
    + exists (e_src e), (e_dst e). split; [apply HI; exists e0; auto|]. left. auto.
    + exists (e_dst e), (e_src e). split; [apply HI; exists e0; auto|]. right. auto.
  - intros (a & b & Hin & Hc). apply HI in Hin as (e0 & He0 & H1 & H2). destruct (HR e0 He0) as [R1 R2].
    assert (X : exists s d, nth (Z.to_nat s) mask false = true /\ nth (Z.to_nat d) mask false = false /\ (0 <= d < n)%Z /\ ((e_src e0 = s /\ e_dst e0 = d) \/ (sym = true /\ e_src e0 = d /\ e_dst e0 = s))).
    { destruct Hc as [[C1 C2]|(C0 & C1 & C2)]; [exists a, b|exists b, a]; (split; [assumption|split; [assumption|split; [lia|]]]); [left|right]; auto. }
    destruct X as (s & d & Hs & Hd & Rd & X). assert (Hsd : s <> d) by (intros Y; rewrite Y in Hs; congruence).
    destruct (proj2 (plap_edges_In n sym zero E0 s d HR Hsd) ltac:(eauto)) as (e & He & <- & <-). exists e. split; [exact He|]. split; [apply flatnonzero_In, Hs|apply (us_In (Z.to_nat n) mask Hm)]. split; [lia|exact Hd].
Qed.
Lemma all_labelled_iff n mask : length mask = n -> (flatnonzero (map negb mask) = [] <-> forall i, (i < n)%nat -> nth i mask false = true).
Proof.
  intros Hm. split.
  - intros H i Hi. destruct (nth i mask false) eqn:E; [reflexivity|]. assert (X : In i (flatnonzero (map negb mask))) by (apply (us_In n mask Hm); auto). rewrite H in X. destruct X.
  - intros H. destruct (flatnonzero (map negb mask)) as [|u us] eqn:E; [reflexivity|]. assert (X : In u (flatnonzero (map negb mask))) by (rewrite E; now left). apply (us_In n mask Hm) in X as [X1 X2]. rewrite (H u X1) in X2. discriminate.
Qed.
Section Returns.
Variables (root : Q -> Q) (power : Q -> Q -> Q) (ex : Q -> Q) (tiny : Q) (sp : plap_spec).
Lemma plap_returns n ei weight y mask k : class_range y k ->
  ((exists r, p_laplace root power ex tiny sp n ei weight y mask = Ok r) <->
   2 <= pl_p sp /\ (exists E, validate_graph n ei weight = Ok E) /\ length y = Z.to_nat n /\ length mask = Z.to_nat n /\ all_shown y mask k /\
   ((forall i, (i < Z.to_nat n)%nat -> nth i mask false = true) \/ crossing (pl_symmetrize sp) ei mask)).
Proof.
  intros CR. split.
  - intros (r & H). destruct (plap_run _ _ _ _ _ _ _ _ _ _ _ H) as (E0 & k' & HV & HP & Ly & Lm & CR' & HS & HD). rewrite (range_unique y k k' CR CR'). cbv zeta in HD.
    split; [exact HP|]. split; [eauto|]. split; [exact Ly|]. split; [exact Lm|]. split; [exact HS|]. destruct HD as [[HU _]|(HU & HA & _)]; [left; apply all_labelled_iff; assumption|right]. apply (crossing_iff n _ (pl_zero_diagonal sp) ei weight E0 mask HV Lm), HA.
  - intros (HP & (E0 & HV) & Ly & Lm & HS & HD). unfold p_laplace. replace (Qle_bool 2 (pl_p sp)) with true by (symmetry; apply Qle_bool_iff, HP). cbn [negb]. rewrite HV. cbn [bind]. cbv zeta.
    destruct (validate_graph_ok _ _ _ _ HV) as (Hn & _). replace (lenZ y =? n)%Z with true by (unfold lenZ; lia). replace (lenZ mask =? n)%Z with true by (unfold lenZ; lia). cbn [negb].
    destruct CR as (K1 & K2 & K3). destruct (HS O ltac:(lia)) as (i0 & Hi0 & Hy0).
    replace (existsb (fun b => b) mask) with true by (symmetry; apply existsb_exists; exists true; split; [|reflexivity]; rewrite <- Hi0; apply nth_In; destruct (Nat.lt_ge_cases i0 (length mask)) as [|Hge]; [assumption|rewrite nth_overflow in Hi0 by lia; discriminate]). cbn [negb].
    assert (HF : filter (fun v => (v >=? 0)%Z) y <> []).
    { intros X. assert (Y : In 0%Z (filter (fun v => (v >=? 0)%Z) y)); [|rewrite X in Y; destruct Y]. apply filter_In. split; [|reflexivity]. cbn in Hy0. rewrite <- Hy0. apply nth_In. destruct (Nat.lt_ge_cases i0 (length y)) as [|Hge]; [assumption|rewrite nth_overflow in Hy0 by lia; discriminate]. }
    assert (HK : k = Z.to_nat (infer_num_classes y)) by (apply (range_unique y); [split; auto|apply infer_class_range]).
    destruct (filter (fun v => (v >=? 0)%Z) y) as [|v0 vs] eqn:EV; [congruence|]. rewrite <- EV. rewrite (kz_range y) by congruence.
    rewrite (proj2 (shown_counts y mask (infer_num_classes y) ltac:(lia)) ltac:(rewrite <- HK; exact HS)).
    rewrite onehot_iff; [|unfold infer_num_classes; lia|intros v; apply infer_bound]. cbn [bind].
    destruct (flatnonzero (map negb mask)) as [|u0 us0] eqn:EU; [eauto|]. rewrite <- EU.
    assert (HA : arcs (flatnonzero mask) (flatnonzero (map negb mask)) (plap_edges n (pl_symmetrize sp) (pl_zero_diagonal sp) E0) <> []).
    { apply (crossing_iff n _ _ ei weight E0 mask HV Lm). destruct HD as [HD|HD]; [|exact HD]. apply (proj2 (all_labelled_iff _ mask Lm)) in HD. congruence. }
    destruct (arcs (flatnonzero mask) _ _) as [|a0 as0]; [congruence|]. eauto.
Qed.
(* labels that are not shown matter only through the number of classes *)
Lemma plap_hidden n ei weight y y' mask r r' k : (forall i, nth i mask false = true -> nth i y (-1)%Z = nth i y' (-1)%Z) -> class_range y k -> class_range y' k ->
  p_laplace root power ex tiny sp n ei weight y mask = Ok r -> p_laplace root power ex tiny sp n ei weight y' mask = Ok r' -> r = r'.
Proof.
  intros Hs CR CR' H H'. destruct (plap_run _ _ _ _ _ _ _ _ _ _ _ H) as (E0 & k1 & HV & _ & Ly & Lm & C1 & _ & HD). destruct (plap_run _ _ _ _ _ _ _ _ _ _ _ H') as (E0' & k2 & HV' & _ & Ly' & _ & C2 & _ & HD').
  rewrite HV in HV'. injection HV' as <-. rewrite (range_unique y k1 k C1 CR) in HD. rewrite (range_unique y' k2 k C2 CR') in HD'. cbv zeta in HD, HD'.
  rewrite <- (zeroed_same k mask y y' ltac:(lia) Hs) in HD'.
  assert (HR : forall c, run_of root power sp n E0 y mask c = run_of root power sp n E0 y' mask c).
  { intros c. unfold run_of. cbv zeta. f_equal. apply map_ext_in. intros i Hi. apply flatnonzero_In in Hi. unfold target. rewrite (Hs i Hi). reflexivity. }
  destruct HD as [[HU ->]|(HU & _ & ->)], HD' as [[HU' ->]|(HU' & _ & ->)]; try congruence. f_equal.
  - apply map_ext. intros i. destruct (position _ i); [|reflexivity]. f_equal. apply map_ext. intros c. rewrite HR. reflexivity.
  - f_equal. apply map_ext. intros c. rewrite HR. reflexivity.
  - f_equal. apply map_ext. intros c. rewrite HR. reflexivity.
Qed.
End Returns.
Lemma run_residual n mask W eps cg_tol tol p power f v r0 k r w : newton_run n mask W eps cg_tol tol p power f v r0 k r w -> 0 <= r0 -> 0 <= r.
Proof.
  assert (C : forall v v' r, change n v v' r -> 0 <= r) by (intros ? ? ? [_ (i & _ & ->)]; apply Qabs_nonneg).
  induction 1 as [v r0|f v r0 v' r HR HC Ht|f v r0 v' r k r' w HR HC Ht Hrun IH]; intros H0; [exact H0|eapply C; eassumption|apply IH; eapply C; eassumption].
Qed.
Section Scored.
Variables (root : Q -> Q) (power : Q -> Q -> Q) (ex : Q -> Q) (tiny : Q) (sp : plap_spec).
Variables (n : Z) (ei : list (Z * Z)) (weight : option (list Q)) (y : list Z) (mask : list bool) (r : plap_result) (E0 : list edge) (k : nat).
Hypothesis HR : p_laplace root power ex tiny sp n ei weight y mask = Ok r.
Hypothesis HV : validate_graph n ei weight = Ok E0.
Hypothesis CR : class_range y k.
Let nn := Z.to_nat n.
Let W := mbo_weight (pl_symmetrize sp) (pl_zero_diagonal sp) E0.
Let us := flatnonzero (map negb mask).
Let ls := flatnonzero mask.
Let g c := map (fun i => target y mask i c) ls.
Lemma run_facts : 2 <= pl_p sp /\ length y = nn /\ length mask = nn /\ all_shown y mask k /\ in_range nn E0 /\
  (forall i c, (i < nn)%nat -> (c < k)%nat -> nth i mask false = true -> entry (pl_F r) i c = target y mask i c) /\ shape nn k (pl_F r) /\
  (us = [] -> pl_iter r = 0%Z /\ pl_residual r = 0) /\
  (us <> [] -> (forall b, (b < length us)%nat -> nth (nth b us O) (pl_F r) [] = softmax ex tiny (map (fun c => nth b (fst (fst (run_of root power sp n E0 y mask c))) 0) (seq 0 k))) /\
    pl_iter r = fold_left Z.max (map (fun c => snd (fst (run_of root power sp n E0 y mask c))) (seq 0 k)) 0%Z /\
    pl_residual r = fold_left Qmax (map (fun c => snd (run_of root power sp n E0 y mask c)) (seq 0 k)) 0).
Proof using All.
  destruct (plap_run _ _ _ _ _ _ _ _ _ _ _ HR) as (E' & k' & HV' & HP & Ly & Lm & CR' & HS & HD). rewrite HV in HV'. injection HV' as <-. rewrite <- (range_unique y k k' CR CR') in *. clear CR'. cbv zeta in HD.
  destruct (validate_graph_ok _ _ _ _ HV) as (_ & RE & _). split; [exact HP|]. split; [exact Ly|]. split; [exact Lm|]. split; [exact HS|]. split; [exact RE|].
  set (Y := zero_unlabelled mask (map (onehot_row k) y)) in *.
  assert (SY : shape nn k Y) by (apply zero_shape; [exact Lm|unfold nn; rewrite <- Ly; apply onehot_shape]).
  assert (LE : forall i c, (i < nn)%nat -> (c < k)%nat -> entry Y i c = target y mask i c) by (intros i c Hi Hc; apply label_entry; [congruence|unfold nn in Hi; lia|exact Hc]).
  fold us in HD. destruct HD as [[HU ->]|(HU & _ & ->)].
  - split; [intros; apply LE; assumption|]. split; [exact SY|]. split; [auto|intros X; contradiction].
  - fold nn. cbn [pl_F pl_iter pl_residual]. split; [|split; [|split; [intros X; contradiction|]]].
    + intros i c Hi Hc Hm. unfold entry. rewrite (nth_map_in _ _ i O) by (rewrite seq_length; exact Hi). rewrite seq_nth by exact Hi. cbn [Nat.add].
      replace (position us i) with (@None nat); [apply LE; assumption|]. symmetry. apply position_None. intros X. apply (us_In nn mask Lm) in X as [_ X]. congruence.
    + split; [rewrite map_length, seq_length; reflexivity|]. intros q Hq. apply in_map_iff in Hq as (i & <- & Hi). apply in_seq in Hi. destruct (position us i) as [b|]; [unfold softmax; rewrite !map_length, seq_length; reflexivity|]. apply (shape_row nn k Y i SY). lia.
    + intros _. split; [|split; reflexivity]. intros b Hb. assert (Hlt := us_lt nn mask Lm b Hb). fold us in Hlt.
      rewrite (nth_map_in _ _ (nth b us O) O) by (rewrite seq_length; exact Hlt). rewrite seq_nth by exact Hlt. cbn [Nat.add]. rewrite (position_nth us b (us_NoDup mask) Hb). reflexivity.
Qed.
Lemma k_pos : (0 < k)%nat. Proof using All. destruct CR as (K & _). lia. Qed.
Lemma position_u i : length mask = nn -> (i < nn)%nat -> nth i mask false = false -> exists b, (b < length us)%nat /\ nth b us O = i.
Proof using Type.
  intros Lm Hi Hm. assert (X : In i us) by (apply (us_In nn mask Lm); auto). apply (In_nth _ _ O) in X. exact X.
Qed.
Hypothesis PO : power_ok power.
Hypothesis EO : exp_ok ex.
Hypothesis TT : tiny <= 1.
Lemma plap_unreached i : (i < nn)%nat -> ~ reached nn mask W i -> forall c, (c < k)%nat -> entry (pl_F r) i c == 1 / inject_Z (Z.of_nat k).
Proof using All.
  intros Hi HU c Hc. destruct run_facts as (HP & Ly & Lm & HS & RE & _ & _ & _ & HF).
  assert (Hm : nth i mask false = false) by (destruct (nth i mask false) eqn:E; [exfalso; apply HU, reached_label, E|reflexivity]).
  destruct (position_u i Lm Hi Hm) as (b & Hb & Hbi). assert (Hus : us <> []) by (intros X; rewrite X in Hb; cbn in Hb; lia). destruct (HF Hus) as (HF1 & _). unfold entry. rewrite <- Hbi, (HF1 b Hb).
  apply (soft_uniform ex tiny EO TT k (fun c => nth b (fst (fst (run_of root power sp n E0 y mask c))) 0) k_pos); [|exact Hc].
  intros d Hd. unfold run_of. cbv zeta. apply (class_unreached root power sp nn mask (plap_edges n (pl_symmetrize sp) (pl_zero_diagonal sp) E0) Lm (plap_edges_range n _ _ E0 RE) _ (proj1 PO (pl_p sp - 2)) b Hb).
  fold us. rewrite Hbi. intros X. apply HU. eapply reached_weights; [|exact X]. intros a a'. apply plap_edges_weight. exact RE.
Qed.
Hypothesis RO : (forall a b, a == b -> root a == root b) /\ (forall a, 0 <= root a).
Hypothesis WN : forall e, In e E0 -> 0 <= e_w e.
Hypothesis SYM : pl_symmetrize sp = true.
Hypothesis EP : 0 < pl_eps sp.
Hypothesis CT : 0 <= pl_cg_tol sp.
Hypothesis CM : (Z.of_nat (length (unlabelled nn mask)) <= pl_cg_max_iter sp)%Z.
Lemma plap_scored : (exists i, (i < nn)%nat /\ nth i mask false = false) ->
  exists (score : nat -> nat -> Q) (rounds : nat -> nat) (residual : nat -> Q),
    (forall c, (c < k)%nat -> learned nn mask W (pl_eps sp) (pl_cg_tol sp) (pl_tol sp) (pl_p sp) power root (Z.to_nat (pl_max_iter sp)) (fun i => target y mask i c) (rounds c) (residual c) (fun i => score i c)) /\
    (forall i, (i < nn)%nat -> nth i mask false = false -> follows k (entry (pl_F r) i) (score i)) /\
    largest_of k residual (pl_residual r) /\
    (2 < pl_p sp /\ (0 < pl_max_iter sp)%Z -> (forall c, (c < k)%nat -> (Z.of_nat (rounds c) <= pl_iter r)%Z) /\ exists c, (c < k)%nat /\ pl_iter r = Z.of_nat (rounds c)) /\
    (pl_p sp <= 2 \/ (pl_max_iter sp <= 0)%Z -> (pl_iter r <= Z.of_nat (length (unlabelled nn mask)))%Z).
Proof using All.
  intros (i0 & Hi0 & Hm0). destruct run_facts as (HP & Ly & Lm & HS & RE & _ & _ & _ & HF). assert (KP := k_pos).
  destruct (position_u i0 Lm Hi0 Hm0) as (b0 & Hb0 & _). assert (Hus : us <> []) by (intros X; rewrite X in Hb0; cbn in Hb0; lia). destruct (HF Hus) as (HF1 & HF2 & HF3).
  set (E := plap_edges n (pl_symmetrize sp) (pl_zero_diagonal sp) E0) in *. assert (ER : in_range nn E) by (apply plap_edges_range; exact RE).
  assert (HW : forall i j, weight_from E i j == W i j) by (intros i j; apply plap_edges_weight; exact RE).
  assert (LU : length us = length (unlabelled nn mask)).
  { apply Permutation_length, NoDup_Permutation; [apply us_NoDup|apply NoDup_filter, seq_NoDup|]. intros i. unfold us. rewrite (us_In nn mask Lm). unfold unlabelled. rewrite filter_In, in_seq, negb_true_iff. intuition lia. }
  set (u c := fst (fst (run_of root power sp n E0 y mask c))). set (N c := snd (fst (run_of root power sp n E0 y mask c))). set (rs c := snd (run_of root power sp n E0 y mask c)).
  assert (HC : forall c, exists kk, learned nn mask (weight_from E) (pl_eps sp) (pl_cg_tol sp) (pl_tol sp) (pl_p sp) power root (Z.to_nat (pl_max_iter sp)) (value mask [] (g c)) kk (rs c) (value mask (u c) (g c)) /\
    (pl_p sp <= 2 \/ (pl_max_iter sp <= 0)%Z -> (N c <= Z.of_nat (length us))%Z /\ kk = O) /\ (2 < pl_p sp /\ (0 < pl_max_iter sp)%Z -> N c = Z.of_nat kk)).
  { intros c.
    assert (X1 : forall i j, (i < nn)%nat -> (j < nn)%nat -> weight_from E i j == weight_from E j i /\ 0 <= weight_from E i j).
    { intros i j _ _. rewrite (HW i j), (HW j i). unfold W. rewrite SYM. split; [apply mbo_weight_symmetric|apply mbo_weight_nonneg, WN]. }
    assert (X2 : 0 < pl_p sp - 2 -> forall x, 0 <= x -> 0 <= power (pl_p sp - 2) x) by (intros H x Hx; apply (proj2 PO); assumption).
    assert (X3 : (Z.of_nat (length us) <= pl_cg_max_iter sp)%Z) by (rewrite LU; exact CM).
    assert (X4 : (0 < length us)%nat) by lia.
    assert (X5 : plap_class root power sp (arcs us us E) (arcs ls us E) (g c) (length us) = (u c, N c, rs c)).
    { unfold u, N, rs, run_of. cbv zeta. fold us ls E. fold (g c). destruct (plap_class root power sp (arcs us us E) (arcs ls us E) (g c) (length us)) as [[? ?] ?]. reflexivity. }
    exact (proj2 (class_ok root power sp nn mask E Lm ER (g c) (proj1 PO (pl_p sp - 2)) EP X1 X2 CT X3 (proj1 RO) (u c) (N c) (rs c) X4 X5)). }
  assert (HC' : exists rounds : nat -> nat, forall c, (c < k)%nat -> learned nn mask (weight_from E) (pl_eps sp) (pl_cg_tol sp) (pl_tol sp) (pl_p sp) power root (Z.to_nat (pl_max_iter sp)) (value mask [] (g c)) (rounds c) (rs c) (value mask (u c) (g c)) /\
    (pl_p sp <= 2 \/ (pl_max_iter sp <= 0)%Z -> (N c <= Z.of_nat (length us))%Z /\ rounds c = O) /\ (2 < pl_p sp /\ (0 < pl_max_iter sp)%Z -> N c = Z.of_nat (rounds c))).
  { exists (fun c => if Qlt_le_dec 2 (pl_p sp) then if (0 <? pl_max_iter sp)%Z then Z.to_nat (N c) else O else O). intros c _. destruct (HC c) as (kk & H1 & H2 & H3).
    replace (if Qlt_le_dec 2 (pl_p sp) then if (0 <? pl_max_iter sp)%Z then Z.to_nat (N c) else O else O) with kk; [split; [exact H1|split; assumption]|].
    destruct (Qlt_le_dec 2 (pl_p sp)) as [Hl|Hl]; [|apply H2; left; exact Hl]. destruct (0 <? pl_max_iter sp)%Z eqn:EM; [rewrite H3 by (split; [exact Hl|lia]); lia|apply H2; right; lia]. }
  clear HC. destruct HC' as (rounds & HC). exists (fun i c => value mask (u c) (g c) i), rounds, rs. split; [|split; [|split; [|split]]].
  - intros c Hc. destruct (HC c Hc) as (H1 & _). apply (learned_weights nn mask (weight_from E)); [exact HW|exact (proj1 RO)|]. apply (learned_labels nn mask _ _ _ _ _ _ _ _ (value mask [] (g c))); [|exact H1].
    intros i Hi Hm. assert (Hin : In i ls) by (apply flatnonzero_In, Hm). apply (In_nth _ _ O) in Hin as (a & Ha & Hai). rewrite <- Hai at 1. unfold ls. rewrite (value_l nn mask Lm [] (g c) a Ha). unfold g. fold ls. rewrite (nth_map_in _ ls a O) by exact Ha. rewrite Hai. reflexivity.
  - intros i Hi Hm. destruct (position_u i Lm Hi Hm) as (b & Hb & Hbi). unfold entry. rewrite <- Hbi, (HF1 b Hb).
    assert (HV0 : forall c, value mask (u c) (g c) (nth b us O) = nth b (u c) 0) by (intros c; apply (value_u mask (u c) (g c) b Hb)).
    destruct (soft_follows ex tiny EO TT k (fun c => nth b (u c) 0) KP) as (F1 & F2 & F3). split; [exact F1|]. split; [exact F2|]. intros c d Hc Hd. rewrite !HV0. apply F3; assumption.
  - rewrite HF3. fold rs. apply largest_Q; [exact KP|]. intros c Hc. destruct (HC c Hc) as ((v & r0 & _ & _ & H3 & H4) & _). assert (R0 : 0 <= r0) by (rewrite H3; apply (proj2 RO)).
    destruct H4 as [(_ & _ & -> & _)|[_ H4]]; [exact R0|]. eapply run_residual; eassumption.
  - intros Hp. rewrite HF2. fold N. destruct (fold_left_Zmax (map N (seq 0 k)) 0%Z) as (M1 & M2 & M3).
    assert (HN : forall c, (c < k)%nat -> N c = Z.of_nat (rounds c)) by (intros c Hc; apply (HC c Hc), Hp).
    assert (HB : forall c, (c < k)%nat -> (Z.of_nat (rounds c) <= fold_left Z.max (map N (seq 0 k)) 0)%Z) by (intros c Hc; rewrite <- (HN c Hc); apply M2, in_map, in_seq; lia).
    split; [exact HB|]. destruct M3 as [M3|M3].
    + exists O. split; [exact KP|]. specialize (HB O KP). lia.
    + apply in_map_iff in M3 as (c & M3 & Hc). apply in_seq in Hc. exists c. split; [lia|]. rewrite <- M3. apply HN. lia.
  - intros Hp. rewrite HF2. fold N. destruct (fold_left_Zmax (map N (seq 0 k)) 0%Z) as (M1 & M2 & M3). destruct M3 as [->|M3]; [lia|]. apply in_map_iff in M3 as (c & M3 & Hc). apply in_seq in Hc. rewrite <- M3, <- LU. apply (HC c ltac:(lia)), Hp.
Qed.
End Scored.
