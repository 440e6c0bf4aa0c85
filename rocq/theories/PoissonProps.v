(* C102: Poisson learning.  C103: Poisson MBO. *)
From Coq Require Import QArith Qminmax Qabs Lqa ZifyBool ZifyNat.
From Verif Require Import Prelude ListFacts SampleServiceProofs QFacts TransModel TransSpec TransProofs TransSolveProofs CgProofs DeepLossSpec DeepLossProps WalkSpec WalkProofs PoissonModel PoissonSpec PoissonProofs MboProofs.
Local Open Scope Q_scope.
Local Open Scope list_scope.
Local Notation length := List.length.

(* ---- C102 *)
(* the scores solve (L + eps I + (1/n) 1 1^T) f = b up to the reported residual, which is the true one of the worst class *)
Theorem C102_equations root tiny n ei weight y mask sp r : poisson_learning root tiny n ei weight y mask sp = Ok r ->
  exists E k, graph_edges n ei weight E /\ shown_values y mask k /\ length (pr_F r) = Z.to_nat n /\ (forall q, In q (pr_F r) -> length q = k) /\
    (forall c, over_nodes (Z.to_nat n) (fun i => source (pn_center sp) (Z.to_nat n) y mask i c) == 0) /\
    largest_of k (fun c => missed (Z.to_nat n) (poisson_op root tiny (pn_kind sp) (pn_eps sp) (Z.to_nat n) E) (fun i => source (pn_center sp) (Z.to_nat n) y mask i c) (fun i => entry (pr_F r) i c)) (pr_residual2 r) /\
    (0 <= pr_iter r <= Z.max 0 (pn_max_iter sp))%Z.
Proof.
  intros H. destruct (poisson_equations _ _ _ _ _ _ _ _ _ H) as (E & k & HV & Hy & Hm & Hs & Hk & _ & _ & [S1 S2] & HL & HI). exists E, k. split; [apply validate_graph_edges, HV|]. split; [exact Hk|]. split; [exact S1|]. split; [exact S2|]. split; [|auto].
  intros c. apply source_sum. destruct Hs as (i & Hi). exists i. split; [|exact Hi]. destruct (Nat.lt_ge_cases i (length mask)) as [|Hge]; [lia|]. rewrite nth_overflow in Hi by lia. discriminate.
Qed.
Print Assumptions C102_equations.

(* the symmetric Laplacian of an undirected graph: the equations have one solution, n rounds reach the tolerance, and the
   scores are then within tol / eps of the solution *)
Theorem C102_converges root tiny n ei weight y mask sp r E : poisson_learning root tiny n ei weight y mask sp = Ok r ->
  graph_edges n ei weight E -> positive_weights weight -> symmetric E -> 0 < tiny -> exact_products root tiny (Z.to_nat n) E ->
  pn_kind sp = Sym -> 0 < pn_eps sp -> 0 <= pn_tol sp -> (n <= pn_max_iter sp)%Z ->
  pr_residual2 r <= pn_tol sp * pn_tol sp /\ (pr_iter r <= n)%Z /\
  forall k c, shown_values y mask k -> (c < k)%nat ->
    exists f, (forall i, (i < Z.to_nat n)%nat -> poisson_op root tiny Sym (pn_eps sp) (Z.to_nat n) E f i == source (pn_center sp) (Z.to_nat n) y mask i c) /\
      (forall g, (forall i, (i < Z.to_nat n)%nat -> poisson_op root tiny Sym (pn_eps sp) (Z.to_nat n) E g i == source (pn_center sp) (Z.to_nat n) y mask i c) -> forall i, (i < Z.to_nat n)%nat -> g i == f i) /\
      pn_eps sp * pn_eps sp * over_nodes (Z.to_nat n) (fun i => (entry (pr_F r) i c - f i) * (entry (pr_F r) i c - f i)) <= pn_tol sp * pn_tol sp.
Proof.
  intros H GE Hw Hs Ht Hr Hk He Htol Hmax. destruct (poisson_equations _ _ _ _ _ _ _ _ _ H) as (E' & k0 & HV & Hy & Hm & _ & Hk0 & Hkp & _ & _ & [HL _] & _).
  assert (E' = E) by (eapply graph_edges_unique; [apply validate_graph_edges, HV|exact GE]). subst E'. destruct (validate_graph_ok _ _ _ _ HV) as (Hn & HE & _ & _ & Hnn).
  destruct (poisson_converges _ _ _ _ _ _ _ _ _ _ H HV Hw Hs Ht Hr Hk He Htol Hmax) as [Hres Hit]. specialize (Hnn Hw). assert (Hn' : (0 < Z.to_nat n)%nat) by lia.
  split; [exact Hres|]. split; [exact Hit|]. intros k c (l & L1 & L2 & L3) Hc. destruct Hk0 as (l0 & K1 & K2 & K3).
  assert (Hkk : k = k0) by (rewrite <- L2, <- K2; apply Permutation_length, NoDup_Permutation; auto; intros v; rewrite L3, K3; reflexivity). rewrite <- Hkk in HL. rewrite Hk in HL.
  destruct (op_solvable root tiny (pn_eps sp) (Z.to_nat n) E (fun i => source (pn_center sp) (Z.to_nat n) y mask i c) HE Hn' Ht Hnn Hs Hr He) as (f & Hf).
  assert (HERR := op_error root tiny (pn_eps sp) (Z.to_nat n) E HE Hn' Ht Hnn Hs Hr (fun i => source (pn_center sp) (Z.to_nat n) y mask i c)).
  exists f. split; [exact Hf|]. split.
  - intros g Hg i Hi. specialize (HERR g f He Hf). assert (HM : missed (Z.to_nat n) (poisson_op root tiny Sym (pn_eps sp) (Z.to_nat n) E) (fun i => source (pn_center sp) (Z.to_nat n) y mask i c) g == 0) by (apply Qsum_zero; intros j Hj; apply in_seq in Hj; rewrite Hg by lia; ring).
    rewrite HM in HERR. assert (Hz : over_nodes (Z.to_nat n) (fun i => (g i - f i) * (g i - f i)) <= 0).
    { apply Qnot_lt_le. intros Hp. assert (0 < pn_eps sp * pn_eps sp * over_nodes (Z.to_nat n) (fun i => (g i - f i) * (g i - f i))) by (apply Qmult_lt_0_compat; [apply Qmult_lt_0_compat; assumption|exact Hp]). lra. }
    assert (Hd := over_squares_zero (Z.to_nat n) (fun i => g i - f i) Hz i Hi). cbn beta in Hd. lra.
  - specialize (HERR (fun i => entry (pr_F r) i c) f He Hf). specialize (HL c Hc). cbn beta in HL, HERR. lra.
Qed.
Print Assumptions C102_converges.

Theorem C102_returns root tiny n ei weight y mask sp k : shown_values y mask k ->
  ((exists r, poisson_learning root tiny n ei weight y mask sp = Ok r) <->
   valid_graph n ei weight /\ length y = Z.to_nat n /\ length mask = Z.to_nat n /\ (exists i, nth i mask false = true) /\ (forall v, In v y -> (v < Z.of_nat k)%Z)).
Proof. intros Hk. rewrite (poisson_returns root tiny n ei weight y mask sp k Hk), validate_graph_iff. reflexivity. Qed.
Print Assumptions C102_returns.
(* labels that are not shown never change a result *)
Theorem C102_hidden_labels root tiny n ei weight y y' mask sp r r' : (forall i, nth i mask false = true -> nth i y (-1)%Z = nth i y' (-1)%Z) ->
  poisson_learning root tiny n ei weight y mask sp = Ok r -> poisson_learning root tiny n ei weight y' mask sp = Ok r' -> r = r'.
Proof. apply poisson_hidden. Qed.
Print Assumptions C102_hidden_labels.
(* exactly solved with centred sources and a class for every shown label, each row of scores sums to 0 *)
Theorem C102_rows_sum_to_zero root tiny n ei weight y mask sp r E : poisson_learning root tiny n ei weight y mask sp = Ok r ->
  graph_edges n ei weight E -> positive_weights weight -> symmetric E -> 0 < tiny -> exact_products root tiny (Z.to_nat n) E ->
  pn_kind sp = Sym -> 0 < pn_eps sp -> pn_center sp = true -> pr_residual2 r == 0 -> (forall i, nth i mask false = true -> (0 <= nth i y (-1))%Z) ->
  forall i, (i < Z.to_nat n)%nat -> Qsum (nth i (pr_F r) []) == 0.
Proof.
  intros H GE Hw Hs Ht Hr Hk He Hc Hres Hpos. destruct (poisson_equations _ _ _ _ _ _ _ _ _ H) as (E' & k & HV & Hy & Hm & _ & _ & Hkp & Hlt & HS & [HL _] & _).
  assert (E' = E) by (eapply graph_edges_unique; [apply validate_graph_edges, HV|exact GE]). subst E'. destruct (validate_graph_ok _ _ _ _ HV) as (Hn & HE & _ & _ & Hnn). specialize (Hnn Hw). assert (Hn' : (0 < Z.to_nat n)%nat) by lia.
  set (nn := Z.to_nat n) in *. rewrite Hk, Hc in HL. set (op := poisson_op root tiny Sym (pn_eps sp) nn E) in *.
  assert (HF : forall c i, (c < k)%nat -> (i < nn)%nat -> op (fun j => entry (pr_F r) j c) i == source true nn y mask i c).
  { intros c i Hcc Hi. specialize (HL c Hcc). assert (Hz := over_squares_zero nn (fun i => source true nn y mask i c - op (fun j => entry (pr_F r) j c) i)). cbn beta in Hz. specialize (Hz ltac:(unfold missed in HL; rewrite Hres in HL; exact HL) i Hi). lra. }
  assert (HR : forall i, (i < nn)%nat -> sum_classes k (source true nn y mask i) == 0).
  { intros i Hi. apply source_row; auto. intros j Hj Hmj. split; [apply Hpos, Hmj|apply Hlt, nth_In; lia]. }
  assert (HSUM : forall m, (m <= k)%nat -> forall i, (i < nn)%nat -> op (fun j => sum_classes m (entry (pr_F r) j)) i == sum_classes m (source true nn y mask i)).
  { induction m as [|m IH]; intros Hm' i Hi.
    - unfold op. rewrite (op_ext root tiny Sym (pn_eps sp) nn E HE Hn' _ (fun j => 0 + 0 * 0) i Hi) by (intros; unfold sum_classes; cbn; reflexivity).
      rewrite (op_linear root tiny Sym (pn_eps sp) nn E HE Hn' (fun _ => 0) (fun _ => 0) 0 i). rewrite Qmult_0_l.
      assert (H0 : poisson_op root tiny Sym (pn_eps sp) nn E (fun _ => 0) i == 0).
      { assert (Hl := op_linear root tiny Sym (pn_eps sp) nn E HE Hn' (fun _ => 0) (fun _ => 0) (-1) i). assert (Hx := op_ext root tiny Sym (pn_eps sp) nn E HE Hn' (fun j => 0 + -1 * 0) (fun _ => 0) i Hi ltac:(intros; cbn beta; ring)). cbn beta in Hl, Hx. rewrite Hx in Hl. lra. }
      rewrite H0. unfold sum_classes. cbn. lra.
    - assert (Hseq : forall f : nat -> Q, sum_classes (S m) f == sum_classes m f + 1 * f m) by (intros f; unfold sum_classes; rewrite seq_S, map_app, Qsum_app; cbn [map]; rewrite Qsum_cons, Qsum_nil; cbn; ring).
      unfold op. rewrite (op_ext root tiny Sym (pn_eps sp) nn E HE Hn' _ (fun j => sum_classes m (entry (pr_F r) j) + 1 * entry (pr_F r) j m) i Hi) by (intros; apply Hseq).
      rewrite (op_linear root tiny Sym (pn_eps sp) nn E HE Hn' (fun j => sum_classes m (entry (pr_F r) j)) (fun j => entry (pr_F r) j m) 1 i). fold op. rewrite (IH ltac:(lia) i Hi), (HF m i ltac:(lia) Hi), Hseq. reflexivity. }
  assert (HERR := op_error root tiny (pn_eps sp) nn E HE Hn' Ht Hnn Hs Hr (fun _ => 0) (fun j => sum_classes k (entry (pr_F r) j)) (fun _ => 0) He). fold op in HERR.
  assert (H0 : forall i, (i < nn)%nat -> op (fun _ => 0) i == 0).
  { intros i Hi. unfold op. assert (Hl := op_linear root tiny Sym (pn_eps sp) nn E HE Hn' (fun _ => 0) (fun _ => 0) (-1) i). assert (Hx := op_ext root tiny Sym (pn_eps sp) nn E HE Hn' (fun j => 0 + -1 * 0) (fun _ => 0) i Hi ltac:(intros; cbn beta; ring)). cbn beta in Hl, Hx. rewrite Hx in Hl. lra. }
  specialize (HERR H0). assert (HM : missed nn op (fun _ => 0) (fun j => sum_classes k (entry (pr_F r) j)) == 0) by (apply Qsum_zero; intros j Hj; apply in_seq in Hj; rewrite (HSUM k (Nat.le_refl k) j), (HR j) by lia; ring).
  rewrite HM in HERR. intros i Hi.
  assert (Hz : over_nodes nn (fun i => (sum_classes k (entry (pr_F r) i) - 0) * (sum_classes k (entry (pr_F r) i) - 0)) <= 0).
  { apply Qnot_lt_le. intros Hp. assert (0 < pn_eps sp * pn_eps sp * over_nodes nn (fun i => (sum_classes k (entry (pr_F r) i) - 0) * (sum_classes k (entry (pr_F r) i) - 0))) by (apply Qmult_lt_0_compat; [apply Qmult_lt_0_compat; assumption|exact Hp]). lra. }
  assert (Hd := over_squares_zero nn (fun i => sum_classes k (entry (pr_F r) i) - 0) Hz i Hi). cbn beta in Hd.
  assert (HE2 := row_sum_entries nn k (pr_F r) i HS Hi). unfold row_sum in HE2. rewrite HE2. lra.
Qed.
Print Assumptions C102_rows_sum_to_zero.

(* two pairs of nodes, 0 - 1 and 2 - 3, one label in each *)
Definition pair_graph : list (Z * Z) := [(0, 1); (1, 0); (2, 3); (3, 2)]%Z.
Definition pair_edges : list edge := combine pair_graph [1; 1; 1; 1].
Definition pair_spec : poisson_spec := {| pn_kind := Sym; pn_eps := 1; pn_center := true; pn_tol := 0; pn_max_iter := 4 |}.
Lemma symmetric_small m E : in_range m E -> (forall i j, (i < m)%nat -> (j < m)%nat -> weight_from E i j == weight_from E j i) -> symmetric E.
Proof.
  intros HE H i j. assert (Z0 : forall a b, (m <= a)%nat \/ (m <= b)%nat -> weight_from E a b == 0).
  { intros a b Hab. unfold weight_from. replace (filter (fun e => (e_dst e =? Z.of_nat a)%Z && (e_src e =? Z.of_nat b)%Z) E) with (@nil edge); [reflexivity|]. symmetry.
    clear H. induction E as [|e E IH]; [reflexivity|]. cbn [filter]. destruct (HE e (or_introl eq_refl)). rewrite IH by (intros x Hx; apply HE; now right).
    destruct (Z.eqb_spec (e_dst e) (Z.of_nat a)), (Z.eqb_spec (e_src e) (Z.of_nat b)); try reflexivity. lia. }
  destruct (Nat.lt_ge_cases i m), (Nat.lt_ge_cases j m); [now apply H| | |]; rewrite !Z0 by lia; reflexivity.
Qed.
Fixpoint all_Qeq (a b : list (list Q)) : bool :=
  match a, b with
  | [], [] => true
  | p :: a', q :: b' => Nat.eqb (length p) (length q) && forallb (fun z => Qeq_bool (fst z) (snd z)) (combine p q) && all_Qeq a' b'
  | _, _ => false
  end.
Lemma all_Qeq_ok a : forall b, all_Qeq a b = true -> Forall2 (Forall2 Qeq) a b.
Proof.
  induction a as [|p a IH]; intros [|q b] H; try discriminate; constructor; cbn [all_Qeq] in H; apply andb_true_iff in H as [H1 H2]; [|apply IH, H2]. apply andb_true_iff in H1 as [Hl H1]. apply Nat.eqb_eq in Hl. clear H2 IH. revert q Hl H1.
  induction p as [|x p IH]; intros [|z q] Hl H; try discriminate; constructor; cbn [combine forallb] in H; apply andb_true_iff in H as [Ha Hb]; [apply Qeq_bool_iff, Ha|apply IH; [now injection Hl|exact Hb]].
Qed.
Lemma Forall2_cons_iff' (A B : Type) (P : A -> B -> Prop) x y l m : Forall2 P (x :: l) (y :: m) -> P x y /\ Forall2 P l m.
Proof. intros H. inversion H; auto. Qed.
Lemma pair_result : exists r, poisson_learning (fun x => x) (1 # 2) 4 pair_graph None [0; 0; 1; 1]%Z [true; false; true; false] pair_spec = Ok r /\
  Forall2 (Forall2 Qeq) (pr_F r) [[1 # 3; -1 # 3]; [1 # 6; -1 # 6]; [-1 # 3; 1 # 3]; [-1 # 6; 1 # 6]] /\ pr_residual2 r == 0.
Proof.
  assert (H : match poisson_learning (fun x => x) (1 # 2) 4 pair_graph None [0; 0; 1; 1]%Z [true; false; true; false] pair_spec with
              | Ok r => all_Qeq (pr_F r) [[1 # 3; -1 # 3]; [1 # 6; -1 # 6]; [-1 # 3; 1 # 3]; [-1 # 6; 1 # 6]] && Qeq_bool (pr_residual2 r) 0
              | Err _ => false end = true) by (vm_compute; reflexivity).
  destruct (poisson_learning _ _ _ _ _ _ _ _) as [r|]; [|discriminate]. exists r. apply andb_true_iff in H as [H1 H2]. split; [reflexivity|]. split; [apply all_Qeq_ok, H1|apply Qeq_bool_iff, H2].
Qed.
Example C102_runs : exists r, poisson_learning (fun x => x) (1 # 2) 4 pair_graph None [0; 0; 1; 1]%Z [true; false; true; false] pair_spec = Ok r /\
  Forall2 (Forall2 Qeq) (pr_F r) [[1 # 3; -1 # 3]; [1 # 6; -1 # 6]; [-1 # 3; 1 # 3]; [-1 # 6; 1 # 6]] /\ pr_residual2 r == 0 /\
  graph_edges 4 pair_graph None pair_edges /\ positive_weights None /\ symmetric pair_edges /\ exact_products (fun x => x) (1 # 2) 4 pair_edges /\ shown_values [0; 0; 1; 1]%Z [true; false; true; false] 2.
Proof.
  destruct pair_result as (r & Hr & HF & H0). exists r. split; [exact Hr|]. split; [exact HF|]. split; [exact H0|].
  split; [apply validate_graph_edges; reflexivity|]. split; [exact I|]. split; [|split].
  - apply (symmetric_small 4); [intros e He; cbn in He; repeat (destruct He as [<-|He]; [cbn; lia|]); destruct He|]. intros [|[|[|[|i]]]] [|[|[|[|j]]]] Hi Hj; try lia; vm_compute; reflexivity.
  - intros [|[|[|[|i]]]] [|[|[|[|j]]]] Hi Hj; try lia; split; vm_compute; reflexivity.
  - exists [0; 1]%Z. split; [repeat constructor; cbn; lia|]. split; [reflexivity|]. intros v. cbn [In length]. split.
    + intros [<-|[<-|[]]]; [exists 0%nat|exists 2%nat]; cbn; repeat split; lia.
    + intros ([|[|[|[|i]]]] & Hi & Hm & Hv); cbn in *; try discriminate; try lia.
Qed.
(* the same graph and shown labels, other hidden labels *)
Example C102_two_labelings : exists r r', poisson_learning (fun x => x) (1 # 2) 4 pair_graph None [0; 0; 1; 1]%Z [true; false; true; false] pair_spec = Ok r /\
  poisson_learning (fun x => x) (1 # 2) 4 pair_graph None [0; 1; 1; -1]%Z [true; false; true; false] pair_spec = Ok r'.
Proof.
  destruct pair_result as (r & Hr & _). destruct (poisson_learning (fun x => x) (1 # 2) 4 pair_graph None [0; 1; 1; -1]%Z [true; false; true; false] pair_spec) as [r'|] eqn:Er; [exists r, r'; auto|].
  assert (H : match poisson_learning (fun x => x) (1 # 2) 4 pair_graph None [0; 1; 1; -1]%Z [true; false; true; false] pair_spec with Ok _ => true | Err _ => false end = true) by (vm_compute; reflexivity). rewrite Er in H. discriminate.
Qed.

(* FINDING: predict_proba returns these scores as they are; they are negative and sum to 0, never a distribution *)
Theorem C102_rows_are_distributions_refuted : exists root tiny ei y mask sp r, validate_node y ei [mask] = Ok tt /\
  poisson_learning root tiny (lenZ y) ei None y mask sp = Ok r /\ pr_residual2 r == 0 /\ entry (pr_F r) 0 1 < 0 /\ Qsum (nth 0 (pr_F r) []) == 0.
Proof.
  exists (fun x => x), (1 # 2), pair_graph, [0; 0; 1; 1]%Z, [true; false; true; false], pair_spec.
  destruct pair_result as (r & Hr & HF & H0). exists r. split; [reflexivity|]. split; [exact Hr|]. split; [exact H0|].
  remember (pr_F r) as F eqn:EF. clear EF Hr. destruct F as [|q F]; [inversion HF|]. apply Forall2_cons_iff' in HF as [H1 _]. destruct q as [|a [|b [|? ?]]]; try (now inversion H1; match goal with H : Forall2 _ _ _ |- _ => inversion H end).
  all: try (inversion H1 as [|? ? ? ? ? H2]; inversion H2 as [|? ? ? ? ? H3]; now inversion H3).
  apply Forall2_cons_iff' in H1 as [A1 H1]. apply Forall2_cons_iff' in H1 as [A2 _]. unfold entry. cbn [nth]. rewrite !Qsum_cons, Qsum_nil. split; lra.
Qed.
Print Assumptions C102_rows_are_distributions_refuted.
(* FINDING: a class that only unlabelled nodes have makes the fit fail, although the data set is valid *)
Theorem C102_hidden_class_refuted : exists root tiny ei y y' mask sp r, validate_node y ei [mask] = Ok tt /\ validate_node y' ei [mask] = Ok tt /\
  (forall i, nth i mask false = true -> nth i y (-1)%Z = nth i y' (-1)%Z) /\
  poisson_learning root tiny (lenZ y) ei None y mask sp = Ok r /\ poisson_learning root tiny (lenZ y) ei None y' mask sp = Err ValueError.
Proof.
  exists (fun x => x), (1 # 2), pair_graph, [0; 0; 1; 1]%Z, [0; 2; 1; 1]%Z, [true; false; true; false], pair_spec.
  destruct pair_result as (r & Hr & _). exists r. split; [reflexivity|]. split; [reflexivity|].
  split; [intros [|[|[|[|i]]]] H; try discriminate; try reflexivity|]. split; [exact Hr|vm_compute; reflexivity].
Qed.
Print Assumptions C102_hidden_class_refuted.
(* FINDING: with laplacian_kind = "rw" the operator is not symmetric and n rounds of conjugate gradient do not solve it,
   even on an undirected graph with two nodes *)
Theorem C102_random_walk_refuted : exists tiny ei y mask sp r, validate_node y ei [mask] = Ok tt /\ symmetric (combine ei (map (fun _ => 1) ei)) /\ 0 < tiny /\
  pn_kind sp = Rw /\ 0 < pn_eps sp /\ 0 <= pn_tol sp /\ (lenZ y <= pn_max_iter sp)%Z /\
  (forall root, poisson_learning root tiny (lenZ y) ei None y mask sp = Ok r) /\ pn_tol sp * pn_tol sp < pr_residual2 r.
Proof.
  exists (1 # 2), [(0, 0); (0, 1); (1, 0)]%Z, [0; 1]%Z, [true; true], {| pn_kind := Rw; pn_eps := 1; pn_center := true; pn_tol := 0; pn_max_iter := 2 |}.
  destruct (poisson_learning (fun x => x) (1 # 2) 2 [(0, 0); (0, 1); (1, 0)]%Z None [0; 1]%Z [true; true] {| pn_kind := Rw; pn_eps := 1; pn_center := true; pn_tol := 0; pn_max_iter := 2 |}) as [r|] eqn:Er; [|exfalso; assert (H : match poisson_learning (fun x => x) (1 # 2) 2 [(0, 0); (0, 1); (1, 0)]%Z None [0; 1]%Z [true; true] {| pn_kind := Rw; pn_eps := 1; pn_center := true; pn_tol := 0; pn_max_iter := 2 |} with Ok _ => true | Err _ => false end = true) by (vm_compute; reflexivity); rewrite Er in H; discriminate].
  exists r. split; [reflexivity|]. split.
  { apply (symmetric_small 2); [intros e He; cbn in He; repeat (destruct He as [<-|He]; [cbn; lia|]); destruct He|]. intros [|[|i]] [|[|j]] Hi Hj; try lia; vm_compute; reflexivity. }
  split; [reflexivity|]. split; [reflexivity|]. split; [reflexivity|]. split; [discriminate|]. split; [reflexivity|]. split; [intros root; rewrite <- Er; reflexivity|]. 
  assert (H : match poisson_learning (fun x => x) (1 # 2) 2 [(0, 0); (0, 1); (1, 0)]%Z None [0; 1]%Z [true; true] {| pn_kind := Rw; pn_eps := 1; pn_center := true; pn_tol := 0; pn_max_iter := 2 |} with Ok q => negb (Qle_bool (pr_residual2 q) 0) | Err _ => false end = true) by (vm_compute; reflexivity).
  rewrite Er in H. apply negb_true_iff in H. cbn [pn_tol]. apply Qnot_le_lt. intros Hle. assert (Hz : pr_residual2 r <= 0) by lra. apply Qle_bool_iff in Hz. congruence.
Qed.
Print Assumptions C102_random_walk_refuted.

(* ---- C103 *)
Theorem C103_rounds argmax n ei weight y mask sp d : argmax_ok argmax -> poisson_mbo argmax n ei weight y mask sp = Ok d ->
  exists E k md P O r, graph_edges n ei weight E /\ class_range y k /\
    let S := mbo_weight (mb_symmetrize sp) (mb_zero_diagonal sp) E in
    largest_of (Z.to_nat n) (total (Z.to_nat n) S) md /\ 0 < md /\
    mbo_rounds (Z.to_nat n) k S (source true (Z.to_nat n) y mask) (aimed (Z.to_nat n) k y mask (mb_b sp) (mb_strategy sp)) (class_share (Z.to_nat n) y mask)
      (1 / md) (mb_mu sp) (mb_dtau sp) (mb_smin sp) (mb_smax sp) (Z.to_nat (mb_T sp)) (Z.to_nat (mb_inner sp)) (Z.to_nat (mb_volume sp)) P O r /\
    length (d_F d) = Z.to_nat n /\ (forall q, In q (d_F d) -> length q = k) /\
    agree (Z.to_nat n) k (entry (d_F d)) (O (Z.to_nat (mb_outer sp))) /\ d_iter d = (mb_T sp + mb_outer sp * mb_inner sp)%Z /\
    (if (0 <? mb_inner sp)%Z && (0 <? mb_outer sp)%Z then d_residual d = Some (r (Z.to_nat (mb_outer sp)))
     else match d_residual d with
          | None => (mb_T sp <= 0)%Z
          | Some q => (0 < mb_T sp)%Z /\ largest_change (Z.to_nat n) k (P (Z.to_nat (mb_T sp))) (P (Z.to_nat (mb_T sp) - 1)%nat) q
          end).
Proof.
  intros Ha H. destruct (mbo_ok argmax Ha _ _ _ _ _ _ _ H) as (E & k & md & P & O & r & HV & _ & _ & HC & _ & _ & HL & Hmd & HR & [S1 S2] & HF & HI & HD).
  exists E, k, md, P, O, r. split; [apply validate_graph_edges, HV|]. repeat (split; [assumption|]). exact HD.
Qed.
Print Assumptions C103_rounds.
Theorem C103_returns argmax n ei weight y mask sp E : argmax_ok argmax -> graph_edges n ei weight E ->
  ((exists d, poisson_mbo argmax n ei weight y mask sp = Ok d) <->
   valid_graph n ei weight /\ length y = Z.to_nat n /\ length mask = Z.to_nat n /\
   (exists k, class_range y k /\ (forall c, (c < k)%nat -> exists i, nth i mask false = true /\ nth i y (-1)%Z = Z.of_nat c) /\
      match mb_b sp with None => True | Some b => length b = k /\ (forall x, In x b -> 0 <= x) /\ 0 < Qsum b end) /\
   (exists i, (i < Z.to_nat n)%nat /\ 0 < total (Z.to_nat n) (mbo_weight (mb_symmetrize sp) (mb_zero_diagonal sp) E) i)).
Proof.
  intros Ha GE. split.
  - intros (d & H). destruct (mbo_ok argmax Ha _ _ _ _ _ _ _ H) as (E' & k & md & P & O & r & HV & Hy & Hm & HC & Hsh & Hgp & HL & Hmd & _).
    assert (E' = E) by (eapply graph_edges_unique; [apply validate_graph_edges, HV|exact GE]). subst E'. split; [apply validate_graph_iff; eauto|]. split; [exact Hy|]. split; [exact Hm|]. split; [exists k; auto|].
    destruct HL as [_ (i & Hi & Hmi)]. exists i. split; [exact Hi|]. rewrite <- Hmi. exact Hmd.
  - intros (HV & Hy & Hm & (k & HC & Hsh & Hgp) & Ht). apply validate_graph_iff in HV as (E' & HV). assert (E' = E) by (eapply graph_edges_unique; [apply validate_graph_edges, HV|exact GE]). subst E'.
    exact (mbo_accepts argmax Ha n ei weight y mask sp E k HV Hy Hm HC Hsh Hgp Ht).
Qed.
Print Assumptions C103_returns.
(* after at least one outer round every row is exactly one class *)
Theorem C103_one_class argmax n ei weight y mask sp d k : argmax_ok argmax -> poisson_mbo argmax n ei weight y mask sp = Ok d -> class_range y k -> (0 < mb_outer sp)%Z ->
  forall i, (i < Z.to_nat n)%nat -> exists w, (w < k)%nat /\ forall c, (c < k)%nat -> entry (d_F d) i c == if Nat.eqb w c then 1 else 0.
Proof.
  intros Ha H HK Ho i Hi. destruct (mbo_ok argmax Ha _ _ _ _ _ _ _ H) as (E & k' & md & P & O & r & HV & _ & _ & HC & _ & _ & HL & Hmd & HR & _ & HF & _). rewrite (class_range_unique _ _ _ HC HK) in *.
  destruct HR as (_ & _ & _ & HR). destruct (Z.to_nat (mb_outer sp)) as [|m] eqn:Em; [lia|]. destruct (HR m) as (X & s & w & _ & _ & _ & Hw & HV' & _). exists (w i). split; [apply Hw, Hi|]. intros c Hc. rewrite (HF i c Hi Hc). apply HV'; assumption.
Qed.
Print Assumptions C103_one_class.
(* on the symmetrised graph the Poisson scores of a class, weighted by the total strengths, sum to 0 *)
Theorem C103_balanced argmax n ei weight y mask sp d E k c : argmax_ok argmax -> poisson_mbo argmax n ei weight y mask sp = Ok d -> graph_edges n ei weight E -> positive_weights weight ->
  class_range y k -> (c < k)%nat -> mb_symmetrize sp = true -> (mb_outer sp <= 0)%Z ->
  (forall i, nth i mask false = true -> 0 < total (Z.to_nat n) (mbo_weight true (mb_zero_diagonal sp) E) i) ->
  over_nodes (Z.to_nat n) (fun i => total (Z.to_nat n) (mbo_weight true (mb_zero_diagonal sp) E) i * entry (d_F d) i c) == 0.
Proof.
  intros Ha H GE Hw HK Hc Hsym Ho Hiso. destruct (mbo_ok argmax Ha _ _ _ _ _ _ _ H) as (E' & k' & md & P & O & r & HV & Hy & Hm & HC & Hsh & _ & HL & Hmd & HR & _ & HF & _). rewrite (class_range_unique _ _ _ HC HK) in *.
  assert (E' = E) by (eapply graph_edges_unique; [apply validate_graph_edges, HV|exact GE]). subst E'. destruct (validate_graph_ok _ _ _ _ HV) as (Hn & HE & _ & _ & Hnn). specialize (Hnn Hw). rewrite Hsym in *. set (nn := Z.to_nat n) in *. set (St := mbo_weight true (mb_zero_diagonal sp) E) in *.
  destruct HR as (P0 & PS & O0 & _). replace (Z.to_nat (mb_outer sp)) with 0%nat in HF by lia.
  set (q := aimed nn k y mask (mb_b sp) (mb_strategy sp) c / class_share nn y mask c).
  transitivity (q * over_nodes nn (fun i => total nn St i * P (Z.to_nat (mb_T sp)) i c)).
  - rewrite <- over_scale. apply over_ext. intros i Hi. rewrite (HF i c Hi Hc), (O0 i c Hi Hc). fold q. ring.
  - rewrite (balanced nn k St (source true nn y mask) (mbo_weight_symmetric _ E) (fun i j => mbo_weight_nonneg true _ E i j Hnn) P c Hc); [ring| | |exact P0|exact PS].
    + apply source_sum. destruct (Hsh c Hc) as (i & Hi & _). exists i. split; [|exact Hi]. destruct (Nat.lt_ge_cases i nn) as [|Hge]; [assumption|]. rewrite nth_overflow in Hi by lia. discriminate.
    + intros i Hi Ht. unfold source. destruct (nth i mask false) eqn:Em; [|reflexivity]. specialize (Hiso i Em). lra.
Qed.
Print Assumptions C103_balanced.
(* unless the proportions are taken from the true labels, labels that are not shown never change a result *)
Theorem C103_hidden_labels argmax n ei weight y y' mask sp d d' : argmax_ok argmax -> (mb_b sp <> None \/ mb_strategy sp <> TrueLabels) ->
  (forall i, nth i mask false = true -> nth i y (-1)%Z = nth i y' (-1)%Z) ->
  poisson_mbo argmax n ei weight y mask sp = Ok d -> poisson_mbo argmax n ei weight y' mask sp = Ok d' -> d = d'.
Proof. intros Ha. apply (mbo_hidden argmax Ha). Qed.
Print Assumptions C103_hidden_labels.

Definition mbo_cfg (st : b_strategy) (t i o v : Z) : mbo_spec :=
  {| mb_T := t; mb_inner := i; mb_outer := o; mb_mu := 1; mb_dtau := 1 # 2; mb_smin := 1 # 2; mb_smax := 2; mb_volume := v; mb_strategy := st; mb_b := None; mb_symmetrize := true; mb_zero_diagonal := true |}.
(* a path of four nodes with the ends labelled; one hidden label differs between the two runs *)
Example C103_runs : exists d d', poisson_mbo ex_argmax 4 [(0, 1); (1, 2); (2, 3)]%Z None [0; 1; 0; 1]%Z [true; false; false; true] (mbo_cfg Uniform 2 1 1 1) = Ok d /\
  poisson_mbo ex_argmax 4 [(0, 1); (1, 2); (2, 3)]%Z None [0; 0; 0; 1]%Z [true; false; false; true] (mbo_cfg Uniform 2 1 1 1) = Ok d' /\
  d_F d = [[1; 0]; [1; 0]; [0; 1]; [0; 1]] /\ d_iter d = 3%Z /\ class_range [0; 1; 0; 1]%Z 2 /\ argmax_ok ex_argmax.
Proof. eexists. eexists. split; [vm_compute; reflexivity|]. split; [vm_compute; reflexivity|]. split; [reflexivity|]. split; [reflexivity|]. split; [exact (infer_class_range [0; 1; 0; 1]%Z)|exact ex_argmax_ok]. Qed.
Example C103_balanced_case : exists d, poisson_mbo ex_argmax 4 [(0, 1); (1, 2); (2, 3)]%Z None [0; 1; 0; 1]%Z [true; false; false; true] (mbo_cfg Uniform 2 1 0 1) = Ok d /\
  Forall2 (Forall2 Qeq) (d_F d) [[1 # 2; -1 # 2]; [1 # 4; -1 # 4]; [-1 # 4; 1 # 4]; [-1 # 2; 1 # 2]] /\
  graph_edges 4 [(0, 1); (1, 2); (2, 3)]%Z None (combine [(0, 1); (1, 2); (2, 3)]%Z [1; 1; 1]) /\
  (forall i, nth i [true; false; false; true] false = true -> 0 < total 4 (mbo_weight true true (combine [(0, 1); (1, 2); (2, 3)]%Z [1; 1; 1])) i).
Proof.
  eexists. split; [vm_compute; reflexivity|]. split; [cbn [d_F]; repeat (constructor; [repeat constructor; vm_compute; reflexivity|]); constructor|]. split; [apply validate_graph_edges; reflexivity|].
  intros [|[|[|[|[|i]]]]] H; try discriminate; vm_compute; reflexivity.
Qed.
(* FINDING: with b_strategy = "true" the hidden label of a node decides the class predicted for that node *)
Theorem C103_hidden_labels_refuted : exists argmax ei y y' mask sp d d', argmax_ok argmax /\ validate_node y ei [mask] = Ok tt /\ validate_node y' ei [mask] = Ok tt /\
  (forall i, nth i mask false = true -> nth i y (-1)%Z = nth i y' (-1)%Z) /\ nth 3 mask false = false /\ nth 3 y (-1)%Z = 0%Z /\ nth 3 y' (-1)%Z = 1%Z /\
  poisson_mbo argmax (lenZ y) ei None y mask sp = Ok d /\ poisson_mbo argmax (lenZ y) ei None y' mask sp = Ok d' /\
  nth 3 (d_F d) [] = [1; 0; 0] /\ nth 3 (d_F d') [] = [0; 1; 0].
Proof.
  exists ex_argmax, [(0, 3); (1, 3)]%Z, [0; 1; 2; 0]%Z, [0; 1; 2; 1]%Z, [true; true; true; false], (mbo_cfg TrueLabels 2 1 1 0). eexists. eexists. split; [exact ex_argmax_ok|]. split; [reflexivity|]. split; [reflexivity|].
  split; [intros [|[|[|[|i]]]] H; try discriminate; reflexivity|]. split; [reflexivity|]. split; [reflexivity|]. split; [reflexivity|]. split; [vm_compute; reflexivity|]. split; [vm_compute; reflexivity|]. split; reflexivity.
Qed.
Print Assumptions C103_hidden_labels_refuted.
(* FINDING: a class that only unlabelled nodes have makes the fit fail *)
Theorem C103_hidden_class_refuted : exists argmax ei y y' mask sp d, argmax_ok argmax /\ validate_node y ei [mask] = Ok tt /\ validate_node y' ei [mask] = Ok tt /\
  (forall i, nth i mask false = true -> nth i y (-1)%Z = nth i y' (-1)%Z) /\
  poisson_mbo argmax (lenZ y) ei None y mask sp = Ok d /\ poisson_mbo argmax (lenZ y) ei None y' mask sp = Err ValueError.
Proof.
  exists ex_argmax, [(0, 1); (1, 2); (2, 3)]%Z, [0; 1; 0; 1]%Z, [0; 2; 0; 1]%Z, [true; false; false; true], (mbo_cfg Uniform 2 1 1 1). eexists. split; [exact ex_argmax_ok|]. split; [reflexivity|]. split; [reflexivity|].
  split; [intros [|[|[|[|i]]]] H; try discriminate; reflexivity|]. split; [vm_compute; reflexivity|]. vm_compute. reflexivity.
Qed.
Print Assumptions C103_hidden_class_refuted.
(* FINDING: labelled nodes are not kept: with mu = 1 a labelled node ends in another class *)
Theorem C103_keeps_labels_refuted : exists argmax ei y mask sp d, argmax_ok argmax /\ validate_node y ei [mask] = Ok tt /\ mb_mu sp = 1 /\
  poisson_mbo argmax (lenZ y) ei None y mask sp = Ok d /\ nth 0 mask false = true /\ nth 0 y (-1)%Z = 0%Z /\ nth 0 (d_F d) [] = [0; 1].
Proof.
  exists ex_argmax, [(0, 1); (0, 2); (0, 3); (1, 2); (1, 3); (2, 3)]%Z, [0; 1; 1; 1]%Z, [true; true; true; true], (mbo_cfg Uniform 1 1 2 0). eexists. split; [exact ex_argmax_ok|]. split; [reflexivity|]. split; [reflexivity|].
  split; [vm_compute; reflexivity|]. split; [reflexivity|]. split; reflexivity.
Qed.
Print Assumptions C103_keeps_labels_refuted.
