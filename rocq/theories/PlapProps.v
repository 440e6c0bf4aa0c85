(* C122: p-Laplace learning. *)
From Coq Require Import QArith Qminmax Qabs Lqa ZifyBool ZifyNat.
From Verif Require Import Prelude ListFacts SampleServiceProofs QFacts TransModel TransSpec TransProofs TransSolveProofs DeepLossSpec DeepLossProps WalkSpec WalkProofs PoissonModel PoissonSpec PoissonProofs MboProofs PoissonProps PlapModel PlapSpec PlapProofs.
Local Open Scope Q_scope.
Local Open Scope list_scope.
Local Notation length := List.length.

Lemma graph_validated n ei weight E : graph_edges n ei weight E -> (exists E', validate_graph n ei weight = Ok E') -> validate_graph n ei weight = Ok E.
Proof. intros GE (E' & HV). assert (X : E' = E) by (eapply graph_edges_unique; [apply validate_graph_edges, HV|exact GE]). rewrite <- X. exact HV. Qed.
Lemma run_graph root power ex tiny sp n ei weight y mask r : p_laplace root power ex tiny sp n ei weight y mask = Ok r -> exists E, validate_graph n ei weight = Ok E.
Proof. intros H. destruct (plap_run _ _ _ _ _ _ _ _ _ _ _ H) as (E0 & k & HV & _). eauto. Qed.

(* the table has a row for every node; a labelled node keeps its label, every other row is a probability distribution *)
Theorem C122_rows root power ex tiny sp n ei weight y mask r k : p_laplace root power ex tiny sp n ei weight y mask = Ok r -> class_range y k -> exp_ok ex -> tiny <= 1 ->
  length (pl_F r) = Z.to_nat n /\ (forall q, In q (pl_F r) -> length q = k) /\
  (forall i c, (i < Z.to_nat n)%nat -> (c < k)%nat -> nth i mask false = true -> entry (pl_F r) i c = target y mask i c) /\
  (forall i, (i < Z.to_nat n)%nat -> nth i mask false = false -> (forall c, (c < k)%nat -> 0 < entry (pl_F r) i c) /\ sum_classes k (entry (pl_F r) i) == 1).
Proof.
  intros H CR EO TT. destruct (run_graph _ _ _ _ _ _ _ _ _ _ _ H) as (E & HV). destruct (run_facts _ _ _ _ _ _ _ _ _ _ _ _ _ H HV CR) as (_ & _ & Lm & _ & _ & HL & [S1 S2] & _ & HF).
  split; [exact S1|]. split; [exact S2|]. split; [exact HL|]. intros i Hi Hm. destruct (position_u n mask i Lm Hi Hm) as (b & Hb & Hbi).
  destruct HF as (HF & _); [intros X; rewrite X in Hb; cbn in Hb; lia|]. unfold entry. rewrite <- Hbi, (HF b Hb).
  destruct (soft_follows ex tiny EO TT k (fun c => nth b (fst (fst (run_of root power sp n E y mask c))) 0)) as (F1 & F2 & _); [destruct CR; lia|]. split; assumption.
Qed.
Print Assumptions C122_rows.

(* on a symmetrised graph the row of an unlabelled node orders the classes as the scores that the method defines: the
   solution of the plain problem, improved by Newton's method when p is above 2.  The residual and the number of
   iterations reported are the largest over the classes *)
Theorem C122_scores root power ex tiny sp n ei weight y mask r k E : p_laplace root power ex tiny sp n ei weight y mask = Ok r -> class_range y k ->
  graph_edges n ei weight E -> (forall e, In e E -> 0 <= e_w e) -> power_ok power -> exp_ok ex -> tiny <= 1 ->
  ((forall a b, a == b -> root a == root b) /\ (forall a, 0 <= root a)) ->
  pl_symmetrize sp = true -> 0 < pl_eps sp -> 0 <= pl_cg_tol sp -> (Z.of_nat (length (unlabelled (Z.to_nat n) mask)) <= pl_cg_max_iter sp)%Z ->
  (exists i, (i < Z.to_nat n)%nat /\ nth i mask false = false) ->
  exists (score : nat -> nat -> Q) (rounds : nat -> nat) (residual : nat -> Q),
    (forall c, (c < k)%nat -> learned (Z.to_nat n) mask (mbo_weight true (pl_zero_diagonal sp) E) (pl_eps sp) (pl_cg_tol sp) (pl_tol sp) (pl_p sp) power root (Z.to_nat (pl_max_iter sp)) (fun i => target y mask i c) (rounds c) (residual c) (fun i => score i c)) /\
    (forall i, (i < Z.to_nat n)%nat -> nth i mask false = false -> follows k (entry (pl_F r) i) (score i)) /\
    largest_of k residual (pl_residual r) /\
    (2 < pl_p sp /\ (0 < pl_max_iter sp)%Z -> (forall c, (c < k)%nat -> (Z.of_nat (rounds c) <= pl_iter r)%Z) /\ exists c, (c < k)%nat /\ pl_iter r = Z.of_nat (rounds c)) /\
    (pl_p sp <= 2 \/ (pl_max_iter sp <= 0)%Z -> (pl_iter r <= Z.of_nat (length (unlabelled (Z.to_nat n) mask)))%Z).
Proof.
  intros H CR GE WN PO EO TT RO SYM EP CT CM HU. assert (HV := graph_validated _ _ _ _ GE (run_graph _ _ _ _ _ _ _ _ _ _ _ H)).
  assert (X := plap_scored root power ex tiny sp n ei weight y mask r E k H HV CR PO EO TT RO WN SYM EP CT CM HU). rewrite SYM in X. exact X.
Qed.
Print Assumptions C122_scores.

(* solved exactly, the scores lie between 0 and 1, and they solve the p-Laplace equation at every unlabelled node: always
   when p is 2, where they are its only solution, and for larger p when the last round changed nothing *)
Theorem C122_exact root power ex tiny sp n ei weight y mask r k E : p_laplace root power ex tiny sp n ei weight y mask = Ok r -> class_range y k ->
  graph_edges n ei weight E -> (forall e, In e E -> 0 <= e_w e) -> power_ok power -> exp_ok ex -> tiny <= 1 ->
  ((forall a b, a == b -> root a == root b) /\ (forall a, 0 <= root a)) ->
  pl_symmetrize sp = true -> 0 < pl_eps sp -> pl_cg_tol sp = 0 -> (Z.of_nat (length (unlabelled (Z.to_nat n) mask)) <= pl_cg_max_iter sp)%Z ->
  (exists i, (i < Z.to_nat n)%nat /\ nth i mask false = false) ->
  let W := mbo_weight true (pl_zero_diagonal sp) E in
  exists score : nat -> nat -> Q,
    (forall i, (i < Z.to_nat n)%nat -> nth i mask false = false -> follows k (entry (pl_F r) i) (score i)) /\
    (forall i c, (i < Z.to_nat n)%nat -> (c < k)%nat -> 0 <= score i c <= 1) /\
    (pl_p sp == 2 -> forall c (f : nat -> Q), (c < k)%nat -> (forall i, (i < Z.to_nat n)%nat -> nth i mask false = true -> f i == target y mask i c) ->
       (forall i, (i < Z.to_nat n)%nat -> nth i mask false = false -> outflow (Z.to_nat n) W (pl_eps sp) plain f i == 0) <->
       (forall i, (i < Z.to_nat n)%nat -> f i == score i c)) /\
    (2 < pl_p sp -> (0 < pl_max_iter sp)%Z -> pl_residual r == 0 -> forall i c, (i < Z.to_nat n)%nat -> (c < k)%nat -> nth i mask false = false ->
       outflow (Z.to_nat n) W (pl_eps sp) (gradient (pl_p sp) power (fun j => score j c)) (fun j => score j c) i == 0).
Proof.
  intros H CR GE WN PO EO TT RO SYM EP CT CM HU W. set (nn := Z.to_nat n) in *.
  destruct (C122_scores root power ex tiny sp n ei weight y mask r k E H CR GE WN PO EO TT RO SYM EP ltac:(rewrite CT; apply Qle_refl) CM HU) as (score & rounds & residual & HL & HF & HR & _ & _).
  fold nn W in HL, HF, HR. rewrite CT in HL. exists score. split; [exact HF|].
  assert (WP : forall i j, (i < nn)%nat -> (j < nn)%nat -> 0 <= W i j) by (intros; apply mbo_weight_nonneg, WN).
  split; [|split].
  - intros i c Hi Hc. apply (learned_within nn mask W (pl_eps sp) WP EP (pl_tol sp) (pl_p sp) power PO root (Z.to_nat (pl_max_iter sp)) (fun i => target y mask i c) (rounds c) (residual c) (fun i => score i c)); [|exact (HL c Hc)|exact Hi].
    intros j _. unfold target. destruct (_ && _); split; discriminate.
  - intros Hp c f Hc Hf. destruct (HL c Hc) as (v & r0 & H1 & H2 & _ & H4). destruct H4 as [(_ & _ & _ & Hv)|[Hc2 _]]; [|exfalso; lra].
    assert (HO := imbalance_zero nn mask W (pl_eps sp) WP EP plain v ltac:(lra)). assert (Hv' : forall i, score i c == v i) by (intros i; change (score i c) with ((fun i => score i c) i); rewrite Hv; reflexivity).
    split.
    + intros HQ i Hi. rewrite (Hv' i). apply (balanced_unique nn mask W (pl_eps sp) WP EP plain f v); [intros; unfold plain; discriminate| |exact HQ|exact HO|exact Hi].
      intros j Hj Hm. rewrite (Hf j Hj Hm), (H1 j Hj Hm). reflexivity.
    + intros HQ i Hi Hm. rewrite <- (HO i Hi Hm). unfold outflow. rewrite (HQ i Hi), (Hv' i).
      assert (X : over_nodes nn (fun j => W i j * plain i j * (f i - f j)) == over_nodes nn (fun j => W i j * plain i j * (v i - v j))); [|rewrite X; reflexivity].
      apply over_ext. intros j Hj. rewrite (HQ i Hi), (HQ j Hj), (Hv' i), (Hv' j). reflexivity.
  - intros Hp Hmi Hr i c Hi Hc Hm. destruct (HL c Hc) as (v & r0 & _ & _ & H3 & H4). destruct H4 as [(Hp2 & _)|[_ H4]]; [exfalso; lra|].
    assert (R0 : 0 <= r0) by (rewrite H3; apply (proj2 RO)). assert (R1 := run_residual _ _ _ _ _ _ _ _ _ _ _ _ _ _ H4 R0). assert (R2 := proj1 HR c Hc). rewrite Hr in R2.
    apply (run_fixed nn mask W (pl_eps sp) WP EP (pl_tol sp) (pl_p sp) power PO (Z.to_nat (pl_max_iter sp)) v r0 (rounds c) (residual c) (fun j => score j c) Hp H4); [lra| |exact Hi|exact Hm].
    destruct (Z.to_nat (pl_max_iter sp)) as [|m] eqn:EM; [lia|]. inversion H4; lia.
Qed.
Print Assumptions C122_exact.

(* an unlabelled node that no label can reach gets the same probability for every class, whatever the solver does *)
Theorem C122_unreached root power ex tiny sp n ei weight y mask r k E i c : p_laplace root power ex tiny sp n ei weight y mask = Ok r -> class_range y k ->
  graph_edges n ei weight E -> power_ok power -> exp_ok ex -> tiny <= 1 -> (i < Z.to_nat n)%nat -> (c < k)%nat ->
  ~ reached (Z.to_nat n) mask (mbo_weight (pl_symmetrize sp) (pl_zero_diagonal sp) E) i -> entry (pl_F r) i c == 1 / inject_Z (Z.of_nat k).
Proof.
  intros H CR GE PO EO TT Hi Hc HU. assert (HV := graph_validated _ _ _ _ GE (run_graph _ _ _ _ _ _ _ _ _ _ _ H)).
  apply (plap_unreached root power ex tiny sp n ei weight y mask r E k H HV CR PO EO TT i Hi HU c Hc).
Qed.
Print Assumptions C122_unreached.

(* a result is returned exactly when p is at least 2, the graph is valid, every class up to the largest label of y labels a
   labelled node, and some label touches an unlabelled node if there is one *)
Theorem C122_returns root power ex tiny sp n ei weight y mask k : class_range y k ->
  ((exists r, p_laplace root power ex tiny sp n ei weight y mask = Ok r) <->
   2 <= pl_p sp /\ valid_graph n ei weight /\ length y = Z.to_nat n /\ length mask = Z.to_nat n /\ all_shown y mask k /\
   ((forall i, (i < Z.to_nat n)%nat -> nth i mask false = true) \/ crossing (pl_symmetrize sp) ei mask)).
Proof. intros CR. rewrite (plap_returns root power ex tiny sp n ei weight y mask k CR), validate_graph_iff. reflexivity. Qed.
Print Assumptions C122_returns.

(* hidden labels below the largest shown one never change a result *)
Theorem C122_hidden_labels root power ex tiny sp n ei weight y y' mask r r' k : (forall i, nth i mask false = true -> nth i y (-1)%Z = nth i y' (-1)%Z) -> class_range y k -> class_range y' k ->
  p_laplace root power ex tiny sp n ei weight y mask = Ok r -> p_laplace root power ex tiny sp n ei weight y' mask = Ok r' -> r = r'.
Proof. apply plap_hidden. Qed.
Print Assumptions C122_hidden_labels.

(* ---- a path 0 - 1 - 2, its ends labelled, and a node 3 apart *)
Definition toy_exp (x : Q) : Q := if Qlt_le_dec 0 x then 1 + x else / (1 - x).
Lemma toy_exp_ok : exp_ok toy_exp.
Proof.
  assert (INV : forall a, 0 < a -> 0 < / a) by (intros; apply Qinv_lt_0_compat; assumption).
  assert (LE1 : forall a, 1 <= a -> / a <= 1) by (intros a Ha; assert (P := INV a ltac:(lra)); assert (M : a * / a == 1) by (apply Qmult_inv_r; lra); set (b := / a) in *; clearbody b; nra).
  split; [reflexivity|]. split; [|split].
  - intros x. unfold toy_exp. destruct (Qlt_le_dec 0 x); [lra|apply INV; lra].
  - intros x y Hxy. unfold toy_exp. destruct (Qlt_le_dec 0 x), (Qlt_le_dec 0 y); try lra.
    + assert (L := LE1 (1 - x) ltac:(lra)). lra.
    + assert (P := INV (1 - x) ltac:(lra)). assert (P' := INV (1 - y) ltac:(lra)). assert (M : (1 - x) * / (1 - x) == 1) by (apply Qmult_inv_r; lra). assert (M' : (1 - y) * / (1 - y) == 1) by (apply Qmult_inv_r; lra).
      set (a := / (1 - x)) in *. set (b := / (1 - y)) in *. clearbody a b. apply Qnot_le_lt. intros C. assert (a * b > 0) by (apply Qmult_lt_0_compat; assumption). nra.
  - intros x y Hxy. unfold toy_exp. destruct (Qlt_le_dec 0 x), (Qlt_le_dec 0 y); try lra. rewrite Hxy. reflexivity.
Qed.
Definition toy_power (e x : Q) : Q := Qabs x.
Lemma toy_power_ok : power_ok toy_power.
Proof. split; [intros e x y H; apply Qabs_wd, H|intros; apply Qabs_nonneg]. Qed.
Definition toy_spec (p : Q) (m : Z) : plap_spec :=
  {| pl_p := p; pl_max_iter := m; pl_tol := 0; pl_cg_tol := 0; pl_cg_max_iter := 4; pl_eps := 1; pl_symmetrize := true; pl_zero_diagonal := true |}.
Definition toy_path : list (Z * Z) := [(0, 1); (1, 2)]%Z.
Definition toy_edges : list edge := combine toy_path [1; 1].
Definition toy_y : list Z := [0; 0; 1; 0]%Z.
Definition toy_mask : list bool := [true; false; true; false].
Definition toy_run (p : Q) := p_laplace Qabs toy_power toy_exp (1 # 2) (toy_spec p 5) 4 toy_path None toy_y toy_mask.
Lemma toy_graph : graph_edges 4 toy_path None toy_edges.
Proof. apply validate_graph_edges. reflexivity. Qed.
Lemma toy_range : class_range toy_y 2.
Proof. split; [lia|]. split; [|right; cbn; auto]. intros v Hv. cbn in Hv. lia. Qed.
Lemma toy_result : exists r, toy_run 3 = Ok r /\ Forall2 (Forall2 Qeq) (pl_F r) [[1; 0]; [1 # 2; 1 # 2]; [0; 1]; [1 # 2; 1 # 2]] /\ pl_iter r = 1%Z /\ pl_residual r == 0.
Proof.
  destruct (toy_run 3) as [r|] eqn:E; [|vm_compute in E; discriminate]. exists r. split; [reflexivity|]. vm_compute in E. injection E as <-. split; [apply all_Qeq_ok; vm_compute; reflexivity|]. split; reflexivity.
Qed.
Example C122_example : exists r, toy_run 3 = Ok r /\ pl_residual r == 0 /\ class_range toy_y 2 /\ graph_edges 4 toy_path None toy_edges /\ (forall e, In e toy_edges -> 0 <= e_w e) /\
  power_ok toy_power /\ exp_ok toy_exp /\ ((forall a b, a == b -> Qabs a == Qabs b) /\ (forall a, 0 <= Qabs a)) /\
  0 < pl_eps (toy_spec 3 5) /\ pl_cg_tol (toy_spec 3 5) = 0 /\ (Z.of_nat (length (unlabelled 4 toy_mask)) <= pl_cg_max_iter (toy_spec 3 5))%Z /\
  ~ reached 4 toy_mask (mbo_weight true true toy_edges) 3.
Proof.
  destruct toy_result as (r & H & _ & _ & HR). exists r. split; [exact H|]. split; [exact HR|]. split; [exact toy_range|]. split; [exact toy_graph|].
  split; [intros e He; cbn in He; intuition (subst; discriminate)|]. split; [exact toy_power_ok|]. split; [exact toy_exp_ok|]. split; [split; [apply Qabs_wd|apply Qabs_nonneg]|].
  split; [reflexivity|]. split; [reflexivity|]. split; [cbn; lia|]. intros X. inversion X as [i Hm|i j Hj Hz _]; subst; [discriminate|]. apply Hz. destruct j as [|[|[|[|j]]]]; [reflexivity..|lia].
Qed.
(* with weight 2 on the left the middle node leans to the left label *)
Definition lean_run := p_laplace Qabs toy_power toy_exp (1 # 2) (toy_spec 3 1) 3 toy_path (Some [2; 1]) [0; 0; 1]%Z [true; false; true].
Example C122_lean_example : exists r, lean_run = Ok r /\ entry (pl_F r) 1 1 < entry (pl_F r) 1 0.
Proof. destruct lean_run as [r|] eqn:E; [|vm_compute in E; discriminate]. exists r. split; [reflexivity|]. vm_compute in E. injection E as <-. vm_compute. reflexivity. Qed.

(* ---- findings *)
(* the label of a node that is not labelled makes the fit fail when no labelled node has its class *)
Theorem C122_hidden_class_refuted : exists (y y' : list Z) (mask : list bool) (r : plap_result),
  (forall i, nth i mask false = true -> nth i y (-1)%Z = nth i y' (-1)%Z) /\
  p_laplace Qabs toy_power toy_exp (1 # 2) (toy_spec 3 1) 2 [(0, 1)]%Z None y mask = Ok r /\
  p_laplace Qabs toy_power toy_exp (1 # 2) (toy_spec 3 1) 2 [(0, 1)]%Z None y' mask = Err ValueError.
Proof.
  exists [0; 0]%Z, [0; 1]%Z, [true; false]. destruct (p_laplace Qabs toy_power toy_exp (1 # 2) (toy_spec 3 1) 2 [(0, 1)]%Z None [0; 0]%Z [true; false]) as [r|] eqn:E; [|vm_compute in E; discriminate].
  exists r. split; [intros [|[|[|i]]] Hm; try discriminate; reflexivity|]. split; reflexivity.
Qed.
Print Assumptions C122_hidden_class_refuted.
(* a labelled node without a class is accepted and its row is not a distribution *)
Theorem C122_labelled_row_refuted : exists (y : list Z) (mask : list bool) (r : plap_result),
  p_laplace Qabs toy_power toy_exp (1 # 2) (toy_spec 3 1) 3 toy_path None y mask = Ok r /\ nth 2 mask false = true /\ Qsum (nth 2 (pl_F r) []) == 0.
Proof.
  exists [0; 0; -1]%Z, [true; false; true]. destruct (p_laplace Qabs toy_power toy_exp (1 # 2) (toy_spec 3 1) 3 toy_path None [0; 0; -1]%Z [true; false; true]) as [r|] eqn:E; [|vm_compute in E; discriminate].
  exists r. split; [reflexivity|]. split; [reflexivity|]. vm_compute in E. injection E as <-. vm_compute. reflexivity.
Qed.
Print Assumptions C122_labelled_row_refuted.
