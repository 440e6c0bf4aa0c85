From Coq Require Import QArith Qminmax Qabs Lqa ZifyBool ZifyNat Permutation Sorted.
From Verif Require Import Prelude ListFacts SampleServiceProofs QFacts TransModel TransSpec TransProofs TransSolveProofs GnnModel GnnSpec.
Local Open Scope Q_scope.
Local Open Scope list_scope.
Local Notation length := List.length.

Lemma e_w_mk a b w : e_w (a, b, w) = w. Proof. reflexivity. Qed.
Lemma e_src_mk a b w : e_src (a, b, w) = a. Proof. reflexivity. Qed.
Lemma e_dst_mk a b w : e_dst (a, b, w) = b. Proof. reflexivity. Qed.
(* ---- one edge per pair *)
Lemma key_pair n e i j : (0 < n)%Z -> (0 <= e_src e < n)%Z -> (0 <= j < n)%Z -> pair_key n e = (i * n + j)%Z -> e_dst e = i /\ e_src e = j.
Proof. unfold pair_key. intros Hn Hs Hj H. assert (e_dst e = i) by nia. split; [assumption|]. subst. lia. Qed.
Lemma key_div n e : (0 < n)%Z -> (0 <= e_src e < n)%Z -> (pair_key n e / n = e_dst e)%Z /\ (pair_key n e mod n = e_src e)%Z.
Proof.
  unfold pair_key. intros Hn Hs. split.
  - rewrite Z.div_add_l by lia. rewrite Z.div_small by lia. lia.
  - rewrite Z.add_comm, Z.mod_add by lia. apply Z.mod_small, Hs.
Qed.
Lemma filter_unique (l : list Z) v : NoDup l -> filter (fun k => (k =? v)%Z) l = if memZ v l then [v] else [].
Proof.
  induction l as [|a l IH]; intros Hn; [reflexivity|]. inversion Hn as [|? ? Ha Hn']; subst. cbn [filter memZ existsb]. rewrite IH by exact Hn'. destruct (Z.eqb_spec a v) as [->|Hav].
  - rewrite Z.eqb_refl. cbn [orb]. destruct (memZ v l) eqn:Em; [apply memZ_In in Em; contradiction|reflexivity].
  - replace (v =? a)%Z with false by lia. reflexivity.
Qed.
Lemma filter_map_comm {A B} (f : A -> B) p l : filter p (map f l) = map f (filter (fun x => p (f x)) l).
Proof. induction l as [|a l IH]; [reflexivity|]. cbn [map filter]. destruct (p (f a)); cbn [map]; now rewrite IH. Qed.
Lemma coalesce_In n E e : (0 < n)%Z -> in_range (Z.to_nat n) E -> In e (coalesce n E) -> exists x, In x E /\ e_src e = e_src x /\ e_dst e = e_dst x.
Proof.
  intros Hn HE H. unfold coalesce in H. apply in_map_iff in H as (k & <- & Hk). apply uniqueZ_In, in_map_iff in Hk as (x & <- & Hx). exists x. destruct (HE x Hx) as [Hs _]. destruct (key_div n x Hn ltac:(lia)) as [H1 H2]. unfold e_src at 1, e_dst at 2. cbn [fst snd]. auto.
Qed.
Lemma coalesce_range n E : (0 < n)%Z -> in_range (Z.to_nat n) E -> in_range (Z.to_nat n) (coalesce n E).
Proof. intros Hn HE e He. destruct (coalesce_In n E e Hn HE He) as (x & Hx & -> & ->). apply HE, Hx. Qed.
Lemma coalesce_weight n E i j : (0 < n)%Z -> in_range (Z.to_nat n) E -> (j < Z.to_nat n)%nat -> weight_from (coalesce n E) i j == weight_from E i j.
Proof.
  intros Hn HE Hj. unfold weight_from at 1. unfold coalesce. rewrite filter_map_comm, map_map.
  set (kk := (Z.of_nat i * n + Z.of_nat j)%Z). set (keys := uniqueZ (map (pair_key n) E)).
  replace (filter _ keys) with (filter (fun k => (k =? kk)%Z) keys).
  2:{ apply filter_ext_in. intros k Hk. unfold keys in Hk. apply uniqueZ_In, in_map_iff in Hk as (x & <- & Hx). destruct (HE x Hx) as [Hs _]. destruct (key_div n x Hn ltac:(lia)) as [H1 H2]. unfold e_src at 1, e_dst at 1. cbn [fst snd]. rewrite H1, H2.
      destruct (Z.eqb_spec (pair_key n x) kk) as [Ek|Ek].
      - destruct (key_pair n x (Z.of_nat i) (Z.of_nat j) Hn ltac:(lia) ltac:(lia) Ek) as [-> ->]. now rewrite !Z.eqb_refl.
      - symmetry. apply andb_false_iff. destruct (Z.eqb_spec (e_dst x) (Z.of_nat i)) as [Ed|]; [|now left]. right. apply Z.eqb_neq. intros Es. apply Ek. unfold pair_key, kk. now rewrite Ed, Es. }
  rewrite filter_unique by apply uniqueZ_NoDup. assert (HW : Qsum (map e_w (filter (fun e => (pair_key n e =? kk)%Z) E)) = weight_from E i j).
  { unfold weight_from. f_equal. f_equal. apply filter_ext_in. intros x Hx. destruct (HE x Hx) as [Hs _]. destruct (Z.eqb_spec (pair_key n x) kk) as [Ek|Ek].
    - destruct (key_pair n x (Z.of_nat i) (Z.of_nat j) Hn ltac:(lia) ltac:(lia) Ek) as [-> ->]. now rewrite !Z.eqb_refl.
    - symmetry. apply andb_false_iff. destruct (Z.eqb_spec (e_dst x) (Z.of_nat i)) as [Ed|]; [|now left]. right. apply Z.eqb_neq. intros Es. apply Ek. unfold pair_key, kk. now rewrite Ed, Es. }
  destruct (memZ kk keys) eqn:Em.
  - cbn [map]. rewrite Qsum_cons, Qsum_nil. unfold e_w at 1. cbn [snd]. rewrite HW. ring.
  - cbn [map]. rewrite Qsum_nil. rewrite <- HW. replace (filter (fun e => (pair_key n e =? kk)%Z) E) with (@nil edge); [reflexivity|]. symmetry.
    destruct (filter (fun e => (pair_key n e =? kk)%Z) E) as [|x r] eqn:Ef; [reflexivity|]. exfalso. assert (Hx : In x (filter (fun e => (pair_key n e =? kk)%Z) E)) by (rewrite Ef; now left). apply filter_In in Hx as [Hx Hk].
    assert (In kk keys) by (apply uniqueZ_In, in_map_iff; exists x; split; [lia|exact Hx]). apply memZ_In in H. congruence.
Qed.
(* pairs (dst, src) are distinct and in order *)
Lemma coalesce_sorted n E : (0 < n)%Z -> in_range (Z.to_nat n) E -> StronglySorted Z.lt (map (pair_key n) (coalesce n E)).
Proof.
  intros Hn HE. unfold coalesce. rewrite map_map. replace (map _ (uniqueZ (map (pair_key n) E))) with (uniqueZ (map (pair_key n) E)); [apply uniqueZ_ascending|].
  symmetry. rewrite <- (map_id (uniqueZ (map (pair_key n) E))) at 2. apply map_ext_in. intros k Hk. unfold pair_key, e_dst, e_src. cbn [fst snd]. rewrite Z.mul_comm, <- Z.div_mod by lia. reflexivity.
Qed.
Lemma weight_app E E' i j : weight_from (E ++ E') i j == weight_from E i j + weight_from E' i j.
Proof. unfold weight_from. rewrite filter_app, map_app, Qsum_app. reflexivity. Qed.
Lemma weight_loops n fill i j : weight_from (map (fun i => (i, i, fill)) (arange n)) i j == if Nat.eqb i j && (Z.of_nat i <? n)%Z then fill else 0.
Proof.
  unfold weight_from. rewrite filter_map_comm, map_map. unfold e_dst, e_src, e_w. cbn [fst snd].
  destruct (Nat.eqb_spec i j) as [->|Hij]; cbn [andb].
  - rewrite (filter_ext _ (fun k => (k =? Z.of_nat j)%Z)) by (intros k; now rewrite Bool.andb_diag). rewrite filter_unique by apply arange_NoDup. destruct (memZ (Z.of_nat j) (arange n)) eqn:Em.
    + apply memZ_In, arange_In in Em. replace (Z.of_nat j <? n)%Z with true by lia. cbn [map]. rewrite Qsum_cons, Qsum_nil. ring.
    + destruct (Z.ltb_spec (Z.of_nat j) n) as [Hl|]; [|reflexivity]. exfalso. assert (In (Z.of_nat j) (arange n)) by (apply arange_In; lia). apply memZ_In in H. congruence.
  - rewrite (filter_ext _ (fun _ => false)); [|intros k; destruct (Z.eqb_spec k (Z.of_nat i)), (Z.eqb_spec k (Z.of_nat j)); try reflexivity; lia]. replace (filter (fun _ : Z => false) (arange n)) with (@nil Z); [reflexivity|]. symmetry. generalize (arange n). induction l; [reflexivity|assumption].
Qed.
Lemma loops_range n E : in_range (Z.to_nat n) E -> in_range (Z.to_nat n) (E ++ map (fun i => (i, i, 1)) (arange n)).
Proof. intros HE e He. apply in_app_iff in He as [He|He]; [apply HE, He|]. apply in_map_iff in He as (k & <- & Hk). apply arange_In in Hk. unfold e_src, e_dst. cbn. lia. Qed.
Definition with_loops (loops : bool) (n : Z) (E : list edge) : list edge := if loops then add_loops n 1 E else E.
Lemma with_loops_range loops n E : (0 < n)%Z -> in_range (Z.to_nat n) E -> in_range (Z.to_nat n) (with_loops loops n E).
Proof. intros Hn HE. destruct loops; [|exact HE]. apply coalesce_range; [exact Hn|]. apply loops_range, HE. Qed.
Lemma with_loops_strength loops n E i j : (0 < n)%Z -> in_range (Z.to_nat n) E -> (i < Z.to_nat n)%nat -> (j < Z.to_nat n)%nat -> weight_from (with_loops loops n E) i j == strength loops E i j.
Proof.
  intros Hn HE Hi Hj. unfold with_loops, strength. destruct loops; cbn [andb]; [|ring]. unfold add_loops. rewrite coalesce_weight by (try apply loops_range; assumption). rewrite weight_app, weight_loops. replace (Z.of_nat i <? n)%Z with true by lia. rewrite Bool.andb_true_r. reflexivity.
Qed.
Lemma with_loops_degree loops n E i : (0 < n)%Z -> in_range (Z.to_nat n) E -> (i < Z.to_nat n)%nat -> degree (with_loops loops n E) (Z.of_nat i) == in_strength loops (Z.to_nat n) E i.
Proof.
  intros Hn HE Hi. rewrite <- (weight_total _ (Z.to_nat n)) by now apply with_loops_range. apply Qsum_ext. intros j Hj. apply in_seq in Hj. apply with_loops_strength; auto; lia.
Qed.

(* ---- the normalised operator *)
Section Operator.
Variable rsqrt : Q -> Q.
Variable tiny : Q.
Lemma Qmax_same a b c : a == b -> Qmax a c == Qmax b c.
Proof. intros H. rewrite H. reflexivity. Qed.
Lemma spmm_takes mode loops n E k F i c : (mode = NormSym -> same_value rsqrt) -> (0 < n)%Z -> in_range (Z.to_nat n) E -> (i < Z.to_nat n)%nat -> (c < k)%nat ->
  entry (spmm (edge_normalise rsqrt tiny mode (with_loops loops n E)) (Z.to_nat n) k F) i c == Qsum (map (fun j => takes rsqrt tiny mode loops (Z.to_nat n) E i j * entry F j c) (seq 0 (Z.to_nat n))).
Proof.
  intros Hr Hn HE Hi Hc. rewrite spmm_entry by assumption. unfold arriving, edge_normalise. rewrite filter_map_comm, map_map. set (E' := with_loops loops n E). assert (HE' : in_range (Z.to_nat n) E') by now apply with_loops_range.
  set (g := fun j => match mode with NormRw => entry F j c / Qmax (in_strength loops (Z.to_nat n) E i) tiny
                            | NormSym => rsqrt (Qmax (in_strength loops (Z.to_nat n) E j) tiny) * rsqrt (Qmax (in_strength loops (Z.to_nat n) E i) tiny) * entry F j c end).
  transitivity (arriving E' e_w (fun j _ => g j) i 0%nat).
  - unfold arriving. apply Qsum_ext. intros e He. apply filter_In in He as [He Hd]. destruct (HE' e He) as [Hs Hd']. unfold g. rewrite e_w_mk, e_src_mk. unfold edge_norm.
    assert (HD : forall v, (0 <= v < Z.of_nat (Z.to_nat n))%Z -> degree E' v == in_strength loops (Z.to_nat n) E (Z.to_nat v)) by (intros v Hv; rewrite <- (with_loops_degree loops n E (Z.to_nat v)) by (auto; lia); rewrite Z2Nat.id by lia; reflexivity).
    assert (Ei : Z.to_nat (e_dst e) = i) by lia. assert (HDi := HD _ Hd'). assert (HDs := HD _ Hs). rewrite Ei in HDi. unfold Qdiv. cbv beta zeta. destruct mode.
    + rewrite (Qmax_same _ _ tiny HDi). ring.
    + specialize (Hr eq_refl). rewrite (Hr _ _ (Qmax_same _ _ tiny HDi)), (Hr _ _ (Qmax_same _ _ tiny HDs)). ring.
  - rewrite <- (weight_sum E' g (Z.to_nat n) i HE'). apply Qsum_ext. intros j Hj. apply in_seq in Hj. unfold E'. rewrite with_loops_strength by (auto; lia). unfold g, takes, Qdiv. destruct mode; ring.
Qed.
End Operator.
Lemma strength_nonneg loops E i j : (forall e, In e E -> 0 <= e_w e) -> 0 <= strength loops E i j.
Proof. intros H. unfold strength. assert (Hw := weight_nonneg E i j H). destruct (loops && Nat.eqb i j); lra. Qed.
Lemma strength_sum n E i : (i < n)%nat -> in_strength true n E i == Qsum (map (weight_from E i) (seq 0 n)) + 1.
Proof.
  intros Hi. unfold in_strength, strength. rewrite Qsum_plus. apply Qplus_comp; [reflexivity|]. cbn [andb]. transitivity (Qsum (map (fun j => (if Nat.eqb j i then 1 else 0) * 1) (seq 0 n))).
  - apply Qsum_ext. intros j _. rewrite Nat.eqb_sym. destruct (Nat.eqb j i); ring.
  - apply (sum_pick (fun _ => 1)); [apply seq_NoDup|apply in_seq; lia].
Qed.
Lemma strength_loops_large n E i : (i < n)%nat -> (forall e, In e E -> 0 <= e_w e) -> 1 <= in_strength true n E i.
Proof. intros Hi H. rewrite strength_sum by exact Hi. assert (0 <= Qsum (map (weight_from E i) (seq 0 n))) by (apply Qsum_nonneg; intros x Hx; apply in_map_iff in Hx as (j & <- & _); apply weight_nonneg, H). lra. Qed.
Lemma takes_nonneg rsqrt tiny loops n E i j : 0 < tiny -> (forall e, In e E -> 0 <= e_w e) -> 0 <= takes rsqrt tiny NormRw loops n E i j.
Proof. intros Ht H. unfold takes. apply Qdiv_nonneg; [apply strength_nonneg, H|]. pose proof (Q.le_max_r (in_strength loops n E i) tiny). lra. Qed.
Lemma takes_sum rsqrt tiny loops n E i : 0 < tiny -> tiny <= in_strength loops n E i -> Qsum (map (takes rsqrt tiny NormRw loops n E i) (seq 0 n)) == 1.
Proof.
  intros Ht H. unfold takes, Qdiv. rewrite Qsum_scale_r. fold (in_strength loops n E i). assert (HM : Qmax (in_strength loops n E i) tiny == in_strength loops n E i) by (apply Q.max_l, H). rewrite HM. field. lra.
Qed.
