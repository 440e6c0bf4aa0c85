(* C36, C37, C38, C40, C56: label propagation, label spreading, Laplace learning and conjugate gradient. *)
From Coq Require Import QArith Qminmax Qabs Lqa.
From Verif Require Import Prelude ListFacts QFacts TransModel TransSpec TransProofs TransSolveProofs CgProofs.
Local Open Scope Q_scope.
Local Open Scope list_scope.

(* ---------------------------------------------------------------- C36 *)
(* whatever the graph, labels and number of rounds: non-negative scores, labels kept, rows summing to 0 or 1 *)
Theorem C36_scores_clamped_and_normalised root eps n ei weight y mask sp d :
  0 < eps -> (forall x, 0 < x -> 0 < root x) -> nonneg_weights weight ->
  label_propagation root eps n ei weight y mask sp = Ok d ->
  exists k, class_count y mask k /\
  (forall i c, (i < Z.to_nat n)%nat -> (c < k)%nat -> 0 <= entry (d_F d) i c) /\
  (forall i c, (i < Z.to_nat n)%nat -> (c < k)%nat -> nth i mask false = true -> entry (d_F d) i c == if (nth i y (-1) =? Z.of_nat c)%Z then 1 else 0) /\
  (forall i, (i < Z.to_nat n)%nat -> ps_rows sp = true -> sum_classes k (entry (d_F d) i) == 0 \/ sum_classes k (entry (d_F d) i) == 1) /\
  (forall i, (i < Z.to_nat n)%nat -> ps_norm sp = Rw -> sum_classes k (entry (d_F d) i) <= 1).
Proof.
  intros He Hr Hw H. exists (Z.to_nat (propagation_classes y mask)). split; [apply propagation_class_count|]. set (k := Z.to_nat (propagation_classes y mask)). destruct (lp_ok _ _ _ _ _ _ _ _ _ H) as (E & HG & Hn & Hk & Hin & Hy & Hm & Hlt & Hst). fold k in Hk, Hlt, Hst.
  destruct (validate_graph_ok _ _ _ _ HG) as (_ & _ & _ & _ & HwE).
  assert (Hg : lp_good (ps_norm sp) (Z.to_nat n) k y mask (ps_rows sp) (entry (d_F d))).
  { refine (stopped_invariant _ _ _ _ _ _ _ _ _ _ _ Hst).
    - intros F G HFG. exact (agree_good root eps He Hr _ _ _ _ _ Hy Hk _ F G HFG).
    - exact (lp_good_start root eps He Hr _ _ _ _ _ Hlt Hy Hk _).
    - intros F HF. exact (lp_good_round root eps He Hr E _ _ _ _ _ Hin (HwE Hw) Hlt Hy Hk _ F HF). }
  destruct Hg as (H1 & H2 & H3). split; [exact H1|]. split; [|split].
  - intros i c Hi Hc Hmi. rewrite (H2 i c Hi Hc Hmi). unfold target. rewrite Hmi. reflexivity.
  - intros i Hi. apply H3, Hi.
  - intros i Hi. apply H3, Hi.
Qed.
Print Assumptions C36_scores_clamped_and_normalised.
(* the result is the sequence of rounds stopped at the first change of at most tol, or after max_iter rounds *)
Theorem C36_stopping_rule root eps n ei weight y mask sp d :
  label_propagation root eps n ei weight y mask sp = Ok d ->
  exists E k, graph_edges n ei weight E /\ class_count y mask k /\
    stopped_iteration (Z.to_nat n) k (lp_round E (edge_share root eps (ps_norm sp) E) mask y k (ps_rows sp)) (target y mask) (ps_tol sp) (ps_max_iter sp) d.
Proof. intros H. destruct (lp_ok _ _ _ _ _ _ _ _ _ H) as (E & HG & _ & _ & _ & _ & _ & _ & Hst). exists E, (Z.to_nat (propagation_classes y mask)). split; [exact (validate_graph_edges _ _ _ _ HG)|]. split; [apply propagation_class_count|exact Hst]. Qed.
Print Assumptions C36_stopping_rule.
(* a path 0 - 1 - 2 - 3 with the ends labelled: two rounds are not enough, the third changes nothing more than 1/4 *)
Definition path_edges : list (Z * Z) := [(0, 1); (1, 0); (1, 2); (2, 1); (2, 3); (3, 2)]%Z.
Definition path_spec (m : Z) (t : Q) := {| ps_norm := Rw; ps_max_iter := m; ps_tol := t; ps_rows := true |}.
Example C36_runs : exists d, label_propagation (fun x => x) (1 # 1000) 4 path_edges None [0; 1; 0; 1]%Z [true; false; false; true] (path_spec 10 (1 # 4)) = Ok d /\
  d_iter d = 3%Z /\ entry (d_F d) 1 0 == 3 # 4 /\ entry (d_F d) 2 1 == 3 # 4.
Proof. eexists. split; [vm_compute; reflexivity|]. split; [vm_compute; reflexivity|]. split; vm_compute; reflexivity. Qed.

(* ---------------------------------------------------------------- C37 *)
(* on a validated dataset with a labelled node the method returns exactly when every class that occurs is also labelled *)
Theorem C37_returns_iff_every_class_is_labelled root eps ei weight y mask masks sp :
  validate_node y ei masks = Ok tt -> In mask masks -> (exists i, has_label y mask i) -> match weight with Some l => List.length l = List.length ei | None => True end ->
  ((exists d, label_propagation root eps (lenZ y) ei weight y mask sp = Ok d) <->
   (forall v, In v y -> (0 <= v)%Z -> exists i, nth i mask false = true /\ nth i y (-1)%Z = v)).
Proof. exact (lp_accepts_iff root eps ei weight y mask masks sp). Qed.
Print Assumptions C37_returns_iff_every_class_is_labelled.
(* when both runs return, changing hidden labels changes nothing *)
Theorem C37_hidden_labels_ignored_partial root eps n ei weight y y' mask sp d d' :
  (exists i, has_label y mask i) -> (forall i, nth i mask false = true -> nth i y (-1)%Z = nth i y' (-1)%Z) ->
  label_propagation root eps n ei weight y mask sp = Ok d -> label_propagation root eps n ei weight y' mask sp = Ok d' -> d = d'.
Proof. exact (lp_ignores_hidden root eps n ei weight y y' mask sp d d'). Qed.
Print Assumptions C37_hidden_labels_ignored_partial.
Example C37_two_hidden_labelings :
  exists d, label_propagation (fun x => x) (1 # 1000) 4 path_edges None [0; 1; 0; 1]%Z [true; false; false; true] (path_spec 5 0) = Ok d /\
            label_propagation (fun x => x) (1 # 1000) 4 path_edges None [0; 0; 1; 1]%Z [true; false; false; true] (path_spec 5 0) = Ok d.
Proof. eexists. split; [vm_compute; reflexivity|]. vm_compute. reflexivity. Qed.
(* a validated dataset on which it raises: class 1 occurs only on an unlabelled node.  The same graph with another hidden
   label is accepted, so the outcome depends on a label the method must not see *)
Theorem C37_hidden_label_raises_refuted :
  exists ei y y' mask, validate_node y ei [mask] = Ok tt /\ validate_node y' ei [mask] = Ok tt /\ (exists i, has_label y mask i) /\
    (forall i, nth i mask false = true -> nth i y (-1)%Z = nth i y' (-1)%Z) /\
    label_propagation (fun x => x) (1 # 1000) (lenZ y) ei None y mask (path_spec 10 0) = Err ValueError /\
    exists d, label_propagation (fun x => x) (1 # 1000) (lenZ y) ei None y' mask (path_spec 10 0) = Ok d.
Proof.
  exists [(0, 1); (1, 0)]%Z, [0; 1]%Z, [0; 0]%Z, [true; false]. split; [reflexivity|]. split; [reflexivity|]. split; [exists O; split; [reflexivity|cbn; lia]|].
  split; [intros [|[|[|i]]]; cbn; congruence|]. split; [vm_compute; reflexivity|]. eexists. vm_compute. reflexivity.
Qed.
Print Assumptions C37_hidden_label_raises_refuted.

(* ---------------------------------------------------------------- C56: label spreading *)
Theorem C56_spreading_stopping_rule root eps n ei weight y mask a sp d :
  label_spreading root eps n ei weight y mask a sp = Ok d ->
  0 <= a < 1 /\ exists E k, graph_edges n ei weight E /\ class_count y mask k /\
    stopped_iteration (Z.to_nat n) k (ls_round E (edge_share root eps (ps_norm sp) E) mask y k (ps_rows sp) a) (target y mask) (ps_tol sp) (ps_max_iter sp) d.
Proof. intros H. destruct (ls_ok _ _ _ _ _ _ _ _ _ _ H) as (E & HG & _ & _ & _ & _ & _ & _ & Ha & Ha' & Hst). split; [split; assumption|]. exists E, (Z.to_nat (propagation_classes y mask)). split; [exact (validate_graph_edges _ _ _ _ HG)|]. split; [apply propagation_class_count|exact Hst]. Qed.
Print Assumptions C56_spreading_stopping_rule.
Theorem C56_spreading_scores root eps n ei weight y mask a sp d :
  0 < eps -> (forall x, 0 < x -> 0 < root x) -> nonneg_weights weight ->
  label_spreading root eps n ei weight y mask a sp = Ok d ->
  exists k, class_count y mask k /\
  (forall i c, (i < Z.to_nat n)%nat -> (c < k)%nat -> 0 <= entry (d_F d) i c) /\
  (forall i, (i < Z.to_nat n)%nat -> ps_rows sp = true -> sum_classes k (entry (d_F d) i) == 0 \/ sum_classes k (entry (d_F d) i) == 1) /\
  (forall i, (i < Z.to_nat n)%nat -> ps_norm sp = Rw -> sum_classes k (entry (d_F d) i) <= 1).
Proof.
  intros He Hr Hw H. exists (Z.to_nat (propagation_classes y mask)). split; [apply propagation_class_count|]. set (k := Z.to_nat (propagation_classes y mask)). destruct (ls_ok _ _ _ _ _ _ _ _ _ _ H) as (E & HG & Hn & Hk & Hin & Hy & Hm & Hlt & Ha & Ha' & Hst). fold k in Hk, Hlt, Hst.
  destruct (validate_graph_ok _ _ _ _ HG) as (_ & _ & _ & _ & HwE).
  assert (Hg : ls_good (ps_norm sp) (Z.to_nat n) k (ps_rows sp) (entry (d_F d))).
  { refine (stopped_invariant _ _ _ _ _ _ _ _ _ _ _ Hst).
    - intros F G HFG. exact (agree_ls_good root eps He Hr _ _ _ y Hy Hk _ F G HFG).
    - destruct (lp_good_start root eps He Hr (ps_norm sp) _ _ _ mask Hlt Hy Hk (ps_rows sp)) as (H1 & _ & H3). split; assumption.
    - intros F HF. exact (ls_good_round root eps He Hr E _ _ _ _ mask Hin (HwE Hw) Hlt Hy Hk _ a F Ha Ha' HF). }
  destruct Hg as (H1 & H3). split; [exact H1|]. split; intros i Hi; apply H3, Hi.
Qed.
Print Assumptions C56_spreading_scores.
Example C56_runs : exists d, label_spreading (fun x => x) (1 # 1000) 4 path_edges None [0; 1; 0; 1]%Z [true; false; false; true] (1 # 2) (path_spec 2 0) = Ok d /\
  d_iter d = 2%Z /\ sum_classes 2 (entry (d_F d) 1) == 1 /\ 0 < entry (d_F d) 1 0.
Proof. eexists. split; [vm_compute; reflexivity|]. split; [vm_compute; reflexivity|]. split; vm_compute; reflexivity. Qed.

(* ---------------------------------------------------------------- C38 *)
(* torch: labelled rows are the labels, and every unlabelled row times its degree is the weighted sum of its neighbours' rows *)
Theorem C38_torch_harmonic solve n ei weight y mask F : solves solve -> laplace_learning solve Torch n ei weight y mask = Ok F ->
  exists E k, graph_edges n ei weight E /\ class_range y k /\ forall c, (c < k)%nat ->
    (forall i, (i < Z.to_nat n)%nat -> nth i mask false = true -> entry F i c == target y mask i c) /\
    (forall u, (u < Z.to_nat n)%nat -> nth u mask false = false -> total_arriving E (Z.of_nat u) * entry F u c == arriving E e_w (entry F) u c).
Proof.
  intros Hs H. destruct (laplace_harmonic solve Hs _ _ _ _ _ _ _ H) as (E & HG & _ & Hl & Hu). exists E, (Z.to_nat (infer_num_classes y)). split; [exact (validate_graph_edges _ _ _ _ HG)|]. split; [apply infer_class_range|]. intros c Hc. split; [intros i Hi; apply Hl; assumption|].
  intros u Hun Hm. rewrite <- (Hu u c Hun Hc Hm). cbn [extra]. change (total_arriving E (Z.of_nat u)) with (degree E (Z.of_nat u)). ring.
Qed.
Print Assumptions C38_torch_harmonic.
(* numpy: the weight of a self-loop is counted twice in the degree *)
Theorem C38_numpy_equation solve n ei weight y mask F : solves solve -> laplace_learning solve Numpy n ei weight y mask = Ok F ->
  exists E k, graph_edges n ei weight E /\ class_range y k /\ forall c, (c < k)%nat ->
    (forall i, (i < Z.to_nat n)%nat -> nth i mask false = true -> entry F i c == target y mask i c) /\
    (forall u, (u < Z.to_nat n)%nat -> nth u mask false = false -> (total_arriving E (Z.of_nat u) + weight_from E u u) * entry F u c == arriving E e_w (entry F) u c).
Proof.
  intros Hs H. destruct (laplace_harmonic solve Hs _ _ _ _ _ _ _ H) as (E & HG & _ & Hl & Hu). exists E, (Z.to_nat (infer_num_classes y)). split; [exact (validate_graph_edges _ _ _ _ HG)|]. split; [apply infer_class_range|]. intros c Hc. split; [intros i Hi; apply Hl; assumption|].
  intros u Hun Hm. exact (Hu u c Hun Hc Hm).
Qed.
Print Assumptions C38_numpy_equation.
(* so it is harmonic at the unlabelled nodes without a self-loop *)
Theorem C38_numpy_harmonic_partial solve n ei weight y mask F : solves solve -> laplace_learning solve Numpy n ei weight y mask = Ok F ->
  exists E k, graph_edges n ei weight E /\ class_range y k /\ forall u c, (u < Z.to_nat n)%nat -> (c < k)%nat -> nth u mask false = false ->
    (forall e, In e E -> ~ (e_src e = Z.of_nat u /\ e_dst e = Z.of_nat u)) -> total_arriving E (Z.of_nat u) * entry F u c == arriving E e_w (entry F) u c.
Proof.
  intros Hs H. destruct (C38_numpy_equation _ _ _ _ _ _ _ Hs H) as (E & k & HG & Hk & Hc). exists E, k. split; [exact HG|]. split; [exact Hk|]. intros u c Hun Hcn Hm Hloop. destruct (Hc c Hcn) as [_ Hu]. rewrite <- (Hu u Hun Hm).
  assert (Hz : weight_from E u u == 0).
  { unfold weight_from. apply Qsum_zero. intros e He. apply filter_In in He as [He Hb]. exfalso. apply (Hloop e He). lia. }
  rewrite Hz. ring.
Qed.
Print Assumptions C38_numpy_harmonic_partial.
(* each unlabelled row is then a probability distribution: entries in [0, 1] that sum to 1, on symmetric graphs when the
   labelled nodes have classes (both backends; numpy needs no self-loop on an unlabelled node) *)
Theorem C38_rows_are_distributions solve b n ei weight y mask F E k : solves solve -> laplace_learning solve b n ei weight y mask = Ok F ->
  graph_edges n ei weight E -> class_range y k -> nonneg_weights weight -> symmetric E ->
  (b = Torch \/ forall e, In e E -> nth (Z.to_nat (e_src e)) mask false = false -> e_src e <> e_dst e) ->
  (forall i, nth i mask false = true -> (0 <= nth i y (-1))%Z) ->
  forall i, (i < Z.to_nat n)%nat -> sum_classes k (entry F i) == 1 /\ forall c, (c < k)%nat -> 0 <= entry F i c <= 1.
Proof.
  intros Hs HF HG0 Hk0 Hw Hsym Hb Hl i Hi. rewrite (class_range_unique _ _ _ Hk0 (infer_class_range y)). clear k Hk0.
  assert (HG : validate_graph n ei weight = Ok E).
  { destruct (laplace_harmonic solve Hs _ _ _ _ _ _ _ HF) as (E' & HG & _). rewrite HG. f_equal. apply (graph_edges_unique n ei weight); [exact (validate_graph_edges _ _ _ _ HG)|exact HG0]. }
  destruct (validate_graph_ok _ _ _ _ HG) as (_ & Hr & _ & _ & HwE).
  assert (Hex : forall u, (u < Z.to_nat n)%nat -> nth u mask false = false -> extra b E u == 0).
  { intros u Hu Hm. destruct b; [|reflexivity]. destruct Hb as [Hb|Hb]; [discriminate|]. cbn [extra]. unfold weight_from. apply Qsum_zero. intros e He. apply filter_In in He as [He Hbb]. exfalso. apply (Hb e He); [|lia]. replace (Z.to_nat (e_src e)) with u by lia. exact Hm. }
  split; [exact (laplace_rows solve Hs b n ei weight y mask F E HF HG Hex Hl i Hi)|]. intros c Hc. exact (laplace_range solve Hs b n ei weight y mask F E HF HG Hex Hl (HwE Hw) Hsym i c Hi Hc).
Qed.
Print Assumptions C38_rows_are_distributions.
(* a solver for one unknown meets the contract *)
Definition solve1 (A B : mat) : option mat :=
  match A, B with [[a]], [r] => if Qeq_bool a 0 then None else Some [map (fun v => v / a) r] | _, _ => None end.
Example solve1_solves : solves solve1.
Proof.
  intros A B X m k Hl Hr Hlb Hrb H. unfold solve1 in H. destruct A as [|[|a [|? ?]] [|? ?]]; try discriminate. destruct B as [|r [|? ?]]; try discriminate. destruct (Qeq_bool a 0) eqn:Ea; [discriminate|]. injection H as <-.
  assert (Ha : ~ a == 0) by (intros Hz; apply Qeq_bool_iff in Hz; congruence). cbn in Hl. subst m. assert (Hk := Hrb r (or_introl eq_refl)). split; [reflexivity|]. split; [intros r' [<-|[]]; rewrite map_length; exact Hk|]. split.
  - intros i c Hi Hc. assert (i = O) by lia. subst i. cbn [seq map]. rewrite Qsum_cons, Qsum_nil. unfold entry. cbn [nth]. rewrite (nth_map_in (fun v => v / a) r c 0) by lia. field. exact Ha.
  - intros x Hx s Hs. assert (s = O) by lia. subst s. specialize (Hx O ltac:(lia)). cbn [seq map] in Hx. rewrite Qsum_cons, Qsum_nil in Hx. unfold entry in Hx. cbn [nth] in Hx. assert (Hz : a * x O == 0) by (rewrite <- Hx; ring). apply Qmult_integral in Hz as [Hz|Hz]; [contradiction|exact Hz].
Qed.
Example C38_runs : exists F, laplace_learning solve1 Torch 3 [(0, 1); (1, 0); (1, 2); (2, 1)]%Z (Some [1; 1; 3; 3]) [0; 0; 1]%Z [true; false; true] = Ok F /\ entry F 1 0 == 1 # 4 /\ entry F 1 1 == 3 # 4.
Proof. eexists. split; [vm_compute; reflexivity|]. split; vm_compute; reflexivity. Qed.
(* with a self-loop on the unlabelled node the two backends differ: 1 from torch, the average of its neighbours, 1/2 from numpy *)
Theorem C38_numpy_self_loop_refuted :
  solves solve1 /\ exists n ei y mask F G E,
    graph_edges n ei None E /\ laplace_learning solve1 Torch n ei None y mask = Ok F /\ laplace_learning solve1 Numpy n ei None y mask = Ok G /\
    symmetric E /\ entry F 1 0 == 1 /\ entry G 1 0 == 1 # 2 /\ ~ total_arriving E 1 * entry G 1 0 == arriving E e_w (entry G) 1 0.
Proof.
  split; [exact solve1_solves|]. exists 2%Z, [(0, 1); (1, 0); (1, 1)]%Z, [0; 0]%Z, [true; false]. eexists. eexists. eexists.
  split; [apply validate_graph_edges; vm_compute; reflexivity|]. split; [vm_compute; reflexivity|]. split; [vm_compute; reflexivity|]. split.
  { intros i j. unfold weight_from, e_dst, e_src. cbn [filter fst snd]. destruct (0 =? Z.of_nat i)%Z, (1 =? Z.of_nat i)%Z, (0 =? Z.of_nat j)%Z, (1 =? Z.of_nat j)%Z; vm_compute; reflexivity. }
  split; [vm_compute; reflexivity|]. split; [vm_compute; reflexivity|]. vm_compute. discriminate.
Qed.
Print Assumptions C38_numpy_self_loop_refuted.

(* ---------------------------------------------------------------- C40 *)
Theorem C40_reported_residual_is_true m A b tol x0 max_iter x info : linear m A -> List.length b = m -> (forall v, x0 = Some v -> List.length v = m) ->
  cg_solve A tol b x0 max_iter = (x, info) ->
  List.length x = m /\ cg_residual2 info == residual2 A b x /\ (0 <= cg_iter info <= Z.max 0 max_iter)%Z /\
  (cg_converged info = true -> residual2 A b x == 0 \/ (0 <= tol /\ residual2 A b x <= tol * tol)).
Proof. intros HA Hb Hx H. exact (cg_ok m A HA b Hb tol x0 max_iter x info Hx H). Qed.
Print Assumptions C40_reported_residual_is_true.
(* for a symmetric positive definite operator m rounds are enough *)
Theorem C40_converges_in_dimension_rounds m A b tol x0 max_iter x info : linear m A -> positive_definite m A -> List.length b = m -> 0 <= tol ->
  (forall v, x0 = Some v -> List.length v = m) -> (Z.of_nat m <= max_iter)%Z -> cg_solve A tol b x0 max_iter = (x, info) ->
  cg_converged info = true /\ (cg_iter info <= Z.of_nat m)%Z /\ residual2 A b x <= tol * tol.
Proof. intros HA HS Hb Ht Hx Hm H. exact (cg_converges m A HA b Hb tol HS Ht x0 max_iter x info Hx Hm H). Qed.
Print Assumptions C40_converges_in_dimension_rounds.
(* the matrix [[2, 1], [1, 3]] *)
Definition A2 (v : vec) : vec := match v with [x; y] => [2 * x + y; x + 3 * y] | _ => v end.
Example A2_linear : linear 2 A2.
Proof.
  split.
  - intros [|x [|y [|? ?]]] H; try discriminate; reflexivity.
  - intros [|x [|y [|? ?]]] [|u [|v [|? ?]]] a H1 H2; try discriminate. split; [reflexivity|]. intros [|[|[|i]]]; cbn; ring.
Qed.
Example A2_positive_definite : positive_definite 2 A2.
Proof.
  split.
  - intros [|x [|y [|? ?]]] [|u [|v [|? ?]]] H1 H2; try discriminate. unfold dot. cbn [A2 combine map fst snd]. rewrite !Qsum_cons, Qsum_nil. ring.
  - intros [|x [|y [|? ?]]] H [i Hi]; try discriminate. unfold dot. cbn [A2 combine map fst snd]. rewrite !Qsum_cons, Qsum_nil.
    assert (Hxy : ~ x == 0 \/ ~ y == 0) by (destruct i as [|[|i]]; [left; exact Hi|right; exact Hi|destruct i; exfalso; apply Hi; reflexivity]).
    assert (Hsq : forall z, ~ z == 0 -> 0 < z * z) by (intros z Hz; destruct (Qlt_le_dec 0 z) as [|Hle]; [nra|]; assert (z < 0) by (apply Qle_lteq in Hle as [|]; [assumption|contradiction]); nra).
    destruct Hxy as [Hz|Hz]; specialize (Hsq _ Hz); nra.
Qed.
Example C40_runs : let '(x, info) := cg_solve A2 (1 # 1000) [1; 2] None 2 in cg_converged info = true /\ cg_iter info = 2%Z /\ nth 0 x 0 == 1 # 5 /\ nth 1 x 0 == 3 # 5.
Proof. vm_compute. repeat split. Qed.
