(* Proofs about the benchmark runner's data handling. *)
From Coq Require Import List ZArith Lia Bool QArith String Permutation ZifyBool ZifyNat.
From Verif Require Import Prelude ListFacts SamplingSpec SamplingModel SamplingProofs SampleServiceModel SampleServiceSpec SampleServiceProofs MetricsModel MetricsSpec MetricsProofs BenchEvalModel BenchEvalSpec.
Import ListNotations.
Local Open Scope string_scope.
Local Open Scope Z_scope.
Local Open Scope list_scope.
Local Notation length := List.length.

(* ------------------------------------------------------------------ rows *)
Lemma at_index_spec {A} (rows : list A) i a : 0 <= i -> (at_index rows i = Ok a <-> nth_error rows (Z.to_nat i) = Some a).
Proof.
  intros H. unfold at_index. destruct (Z.ltb_spec i 0); [lia|].
  destruct (Z.ltb_spec i 0); [lia|]. cbn [orb]. unfold lenZ. destruct (Z.leb_spec (Z.of_nat (length rows)) i) as [L|L].
  - split; [discriminate|]. intros E. assert (X : nth_error rows (Z.to_nat i) <> None) by congruence. apply nth_error_Some in X. lia.
  - destruct (nth_error rows (Z.to_nat i)); split; congruence.
Qed.
Lemma take_spec {A} (rows : list A) idx out : Forall (fun i => 0 <= i) idx -> (take rows idx = Ok out <-> rows_at rows idx out).
Proof.
  intros H. revert out. induction H as [|i idx Hi H IH]; intros out; cbn.
  - split; [intros E; injection E as <-; constructor|]. intros F. inversion F. reflexivity.
  - split.
    + intros E. apply bind_ok in E as (a & E1 & E). apply bind_ok in E as (l & E2 & E). injection E as <-.
      constructor; [split; [exact Hi|apply at_index_spec; assumption]|apply IH; exact E2].
    + intros F. inversion F as [|? a ? l (_ & E1) F']; subst. apply at_index_spec in E1; [|exact Hi]. rewrite E1. cbn.
      apply IH in F'. rewrite F'. reflexivity.
Qed.
Lemma as_idx_spec idx r : as_idx idx = r -> (Forall (fun i => 0 <= i) idx /\ r = Ok idx) \/ (~ Forall (fun i => 0 <= i) idx /\ r = Err BenchError).
Proof.
  unfold as_idx. destruct (existsb (fun i => i <? 0) idx) eqn:E; intros <-.
  - right. split; [|reflexivity]. intros F. apply existsb_exists in E as (x & HI & L). rewrite Forall_forall in F. specialize (F x HI). lia.
  - left. split; [|reflexivity]. apply Forall_forall. intros x HI. destruct (Z.leb_spec 0 x); [assumption|].
    assert (X : existsb (fun i => i <? 0) idx = true) by (apply existsb_exists; exists x; split; [exact HI|lia]). congruence.
Qed.
Lemma rows_at_nonneg {A} (rows : list A) idx out : rows_at rows idx out -> Forall (fun i => 0 <= i) idx.
Proof. intros F. induction F; constructor; tauto. Qed.
Lemma select_rows_spec {A} (rows : list A) idx out : select_rows rows idx = Ok out <-> rows_at rows idx out.
Proof.
  unfold select_rows. destruct (as_idx_spec idx _ eq_refl) as [(N & ->)|(N & ->)]; cbn.
  - apply take_spec, N.
  - split; [discriminate|]. intros F. exfalso. exact (N (rows_at_nonneg _ _ _ F)).
Qed.
Lemma take_fails {A} (rows : list A) idx : Forall (fun i => 0 <= i) idx -> Forall (fun i => i < lenZ rows) idx \/ take rows idx = Err IndexError.
Proof.
  intros H. induction H as [|i idx Hi H IH]; [left; constructor|]. cbn. unfold lenZ in *.
  destruct (Z.ltb_spec i (Z.of_nat (length rows))) as [L|L].
  - destruct IH as [IH|IH]; [left; constructor; assumption|]. right. destruct (at_index rows i) as [a|e] eqn:E; cbn; [rewrite IH; reflexivity|].
    exfalso. destruct (nth_error rows (Z.to_nat i)) as [a|] eqn:E2; [|apply nth_error_None in E2; lia]. apply at_index_spec in E2; [congruence|exact Hi].
  - right. assert (E : at_index rows i = Err IndexError); [|rewrite E; reflexivity]. unfold at_index, lenZ.
    destruct (Z.ltb_spec i 0); [lia|]. destruct (Z.ltb_spec i 0); [lia|]. destruct (Z.leb_spec (Z.of_nat (length rows)) i); [reflexivity|lia].
Qed.
Lemma rows_at_exists {A} (rows : list A) idx : Forall (fun i => 0 <= i < lenZ rows) idx -> exists out, rows_at rows idx out.
Proof.
  intros F. induction F as [|i idx Hi F (out & IH)]; [exists []; constructor|].
  destruct (nth_error rows (Z.to_nat i)) as [a|] eqn:E; [|apply nth_error_None in E; unfold lenZ in Hi; lia].
  exists (a :: out). constructor; [split; [lia|exact E]|exact IH].
Qed.
Lemma rows_at_length {A} (rows : list A) idx out : rows_at rows idx out -> length out = length idx.
Proof. intros F. symmetry. unfold rows_at in F. induction F; cbn; congruence. Qed.
Lemma rows_at_nth {A} (rows : list A) idx out k i : rows_at rows idx out -> nth_error idx k = Some i -> 0 <= i /\ nth_error out k = nth_error rows (Z.to_nat i).
Proof.
  intros F. revert k. induction F as [|x a idx out (P & Q) F IH]; intros [|k] E; try discriminate; cbn in *.
  - injection E as <-. split; [exact P|]. symmetry; exact Q.
  - apply IH, E.
Qed.
Lemma rows_at_range {A} (rows : list A) idx out : rows_at rows idx out -> Forall (fun i => 0 <= i < lenZ rows) idx.
Proof.
  intros F. induction F as [|x a idx out (P & Q) F IH]; constructor; [|exact IH]. split; [exact P|].
  assert (X : nth_error rows (Z.to_nat x) <> None) by congruence. apply nth_error_Some in X. unfold lenZ. lia.
Qed.

Lemma maxZ_In l : l <> [] -> In (maxZ l) l.
Proof.
  destruct l as [|y l]; [congruence|]. intros _. unfold maxZ. cbn [hd].
  assert (X : forall r, In (fold_right Z.max y r) (y :: r)).
  { induction r as [|a r IH]; [left; reflexivity|]. cbn [fold_right]. destruct (Z.max_spec a (fold_right Z.max y r)) as [(_ & ->)|(_ & ->)].
    - destruct IH as [IH|IH]; [left; exact IH|right; right; exact IH].
    - right; left; reflexivity. }
  cbn [fold_right]. destruct (Z.max_spec y (fold_right Z.max y l)) as [(_ & ->)|(_ & ->)]; [apply X|left; reflexivity].
Qed.

(* ------------------------------------------------------------------ graph mappings *)
Section Slicing.
Variable A : Type.
Variable as_int : A -> option Z.
Variable subgraph : list (Z * Z) -> list Z -> option Z -> result (list (Z * Z)).
Hypothesis SUB : subgraph_ok subgraph.

Lemma get_cons {V} (k : string) (v : V) l k' : get ((k, v) :: l) k' = if String.eqb k k' then Some v else get l k'.
Proof. unfold get. cbn. destruct (String.eqb k k'); reflexivity. Qed.
Lemma slice_fields_get (l : graph_map A) idx l' : slice_fields A l idx = Ok l' -> forall k, k <> "edge_index" ->
  match get l k with
  | Some f => exists f', slice_field A f idx = Ok f' /\ get l' k = Some f'
  | None => get l' k = None
  end.
Proof using.
  revert l'. induction l as [|(k0, f) l IH]; intros l' H k NE; cbn in H.
  - injection H as <-. reflexivity.
  - rewrite get_cons. destruct (String.eqb_spec k0 "edge_index") as [->|N0].
    + destruct (String.eqb_spec "edge_index" k); [congruence|]. apply IH; assumption.
    + apply bind_ok in H as (f' & E1 & H). apply bind_ok in H as (r' & E2 & H). injection H as <-.
      destruct (String.eqb_spec k0 k) as [->|]; [exists f'; split; [exact E1|rewrite get_cons, String.eqb_refl; reflexivity]|].
      specialize (IH r' E2 k NE). rewrite get_cons. destruct (String.eqb_spec k0 k); [contradiction|]. exact IH.
Qed.
Lemma slice_fields_edge (l : graph_map A) idx l' : slice_fields A l idx = Ok l' -> get l' "edge_index" = None.
Proof using.
  revert l'. induction l as [|(k0, f) l IH]; intros l' H; cbn in H.
  - injection H as <-. reflexivity.
  - destruct (String.eqb_spec k0 "edge_index") as [->|N0]; [apply IH; exact H|].
    apply bind_ok in H as (f' & E1 & H). apply bind_ok in H as (r' & E2 & H). injection H as <-. rewrite get_cons.
    destruct (String.eqb_spec k0 "edge_index"); [contradiction|]. apply IH, E2.
Qed.
Lemma select_map_rows X idx out k rows : select_map A as_int subgraph X idx = Ok out -> k <> "edge_index" -> get X k = Some (FRows rows) ->
  Forall (fun i => 0 <= i) idx /\
  ((Forall (fun i => i < lenZ rows) idx /\ exists rows', rows_at rows idx rows' /\ get out k = Some (FRows rows')) \/
   (~ Forall (fun i => i < lenZ rows) idx /\ get out k = Some (FRows rows))).
Proof using.
  intros H NE G. unfold select_map in H. destruct (as_idx_spec idx _ eq_refl) as [(N & E0)|(_ & E0)]; rewrite E0 in H; [|discriminate].
  cbn [bind] in H. split; [exact N|].
  assert (HX : exists rest, slice_fields A X idx = Ok rest /\ get out k = get rest k).
  { destruct (get X "edge_index") as [f|]; [|exists out; auto]. destruct f; try discriminate.
    apply bind_ok in H as (e' & E1 & H). apply bind_ok in H as (rest & E2 & H). injection H as <-. exists rest. split; [exact E2|].
    rewrite get_cons. destruct (String.eqb_spec "edge_index" k); [congruence|reflexivity]. }
  destruct HX as (rest & E & ->). pose proof (slice_fields_get X idx rest E k NE) as S. rewrite G in S. destruct S as (f' & E1 & ->).
  cbn in E1. destruct (should_slice A (FRows rows) idx) eqn:SS.
  - apply bind_ok in E1 as (l & E2 & E1). injection E1 as <-. left. apply take_spec in E2; [|exact N]. split.
    + pose proof (rows_at_range _ _ _ E2) as F. eapply Forall_impl; [|exact F]. cbn. lia.
    + exists l. auto.
  - injection E1 as <-. right. split; [|reflexivity]. intros F. destruct idx as [|i idx]; [discriminate|]. cbn in SS.
    assert (M : In (maxZ (i :: idx)) (i :: idx)) by (apply maxZ_In; discriminate).
    rewrite Forall_forall in F. specialize (F _ M). change (maxZ (i :: idx) <? lenZ rows = false) in SS. lia.
Qed.
Lemma select_map_other X idx out k a : select_map A as_int subgraph X idx = Ok out -> k <> "edge_index" -> get X k = Some (FOther a) -> get out k = Some (FOther a).
Proof using.
  intros H NE G. unfold select_map in H. destruct (as_idx_spec idx _ eq_refl) as [(N & E0)|(_ & E0)]; rewrite E0 in H; [|discriminate].
  cbn [bind] in H.
  assert (HX : exists rest, slice_fields A X idx = Ok rest /\ get out k = get rest k).
  { destruct (get X "edge_index") as [f|]; [|exists out; auto]. destruct f; try discriminate.
    apply bind_ok in H as (e' & E1 & H). apply bind_ok in H as (rest & E2 & H). injection H as <-. exists rest. split; [exact E2|].
    rewrite get_cons. destruct (String.eqb_spec "edge_index" k); [congruence|reflexivity]. }
  destruct HX as (rest & E & ->). pose proof (slice_fields_get X idx rest E k NE) as S. rewrite G in S. destruct S as (f' & E1 & ->).
  cbn in E1. injection E1 as <-. reflexivity.
Qed.
Lemma select_map_edges X idx out e : select_map A as_int subgraph X idx = Ok out -> get X "edge_index" = Some (FEdges e) -> NoDup idx ->
  exists e', get out "edge_index" = Some (FEdges e') /\ induced e idx e'.
Proof using SUB.
  intros H G ND. unfold select_map in H. destruct (as_idx_spec idx _ eq_refl) as [(N & E0)|(_ & E0)]; rewrite E0 in H; [|discriminate].
  cbn [bind] in H. rewrite G in H. apply bind_ok in H as (e' & E1 & H). apply bind_ok in H as (rest & E2 & H). injection H as <-.
  destruct (subgraph e idx (infer_num_nodes A as_int X)) as [r|] eqn:ES; [|discriminate]. injection E1 as ->.
  exists e'. split; [rewrite get_cons; reflexivity|]. exact (SUB _ _ _ _ ND ES).
Qed.
End Slicing.

Lemma induced_in e idx e' a b : induced e idx e' ->
  (In (a, b) e' -> 0 <= a /\ 0 <= b /\ exists u v, In (u, v) e /\ nth_error idx (Z.to_nat a) = Some u /\ nth_error idx (Z.to_nat b) = Some v).
Proof.
  intros F HI. apply In_nth_error in HI as (k & Hk). unfold induced in F.
  assert (X : forall l l' k p', Forall2 (renumbered idx) l l' -> nth_error l' k = Some p' -> exists p, nth_error l k = Some p /\ renumbered idx p p').
  { clear. intros l l' k p' F. revert k. induction F; intros [|k] E; try discriminate; cbn in *; [injection E as <-; eauto|eauto]. }
  destruct (X _ _ _ _ F Hk) as ((u, v) & E & ((P1 & P2) & (P3 & P4))). cbn in *. split; [exact P1|]. split; [exact P3|].
  exists u, v. split; [|auto]. apply nth_error_In in E. apply filter_In in E. tauto.
Qed.
Lemma induced_complete e idx e' u v : induced e idx e' -> In (u, v) e -> In u idx -> In v idx ->
  exists a b, In (a, b) e' /\ 0 <= a /\ 0 <= b /\ nth_error idx (Z.to_nat a) = Some u /\ nth_error idx (Z.to_nat b) = Some v.
Proof.
  intros F HI Hu Hv. unfold induced in F.
  assert (K : In (u, v) (filter (fun e => memZ (fst e) idx && memZ (snd e) idx) e)).
  { apply filter_In. split; [exact HI|]. cbn. apply andb_true_iff. split; apply memZ_In; assumption. }
  revert K. induction F as [|p (a, b) l l' R F IH]; intros K; [destruct K|]. destruct K as [->|K].
  - exists a, b. destruct R as ((P1 & P2) & (P3 & P4)). cbn in *. split; [left; reflexivity|auto].
  - destruct (IH K) as (a' & b' & HI' & Q). exists a', b'. split; [right; exact HI'|exact Q].
Qed.

(* ------------------------------------------------------------------ the conversion of graph sampling *)
Lemma where_true_bounds m n : lenZ m = n -> in_bounds n (where_true m).
Proof. intros <-. split; [apply ascending_NoDup, where_true_ascending|intros i; apply where_true_bound]. Qed.
Lemma where_true_iff m i : In i (where_true m) <-> 0 <= i < lenZ m /\ on m i.
Proof.
  split.
  - intros H. pose proof (where_true_bound _ _ H). split; [assumption|]. apply where_true_In; [lia|exact H].
  - intros (B & O). apply where_true_In; [lia|exact O].
Qed.
Lemma conversion_sound n m : sound_masks n m -> sound_dictionary n None (graph_sampling_to_inductive m)
  (where_true (m_train m)) (where_true (m_val m)) (where_true (m_test m)) (where_true (m_labeled m)) (where_true (m_unlabeled m)).
Proof.
  intros S.
  assert (L1 : lenZ (m_train m) = n) by (apply (sm_lengths _ _ S); cbn; auto).
  assert (L2 : lenZ (m_val m) = n) by (apply (sm_lengths _ _ S); cbn; auto).
  assert (L3 : lenZ (m_test m) = n) by (apply (sm_lengths _ _ S); cbn; auto).
  assert (L4 : lenZ (m_labeled m) = n) by (apply (sm_lengths _ _ S); cbn; auto).
  assert (L5 : lenZ (m_unlabeled m) = n) by (apply (sm_lengths _ _ S); cbn; auto 6).
  constructor; try reflexivity.
  - intros name idx HI _. cbn in HI.
    destruct HI as [E|[E|[E|[E|[E|[]]]]]]; injection E as <- <-; apply where_true_bounds; assumption.
  - intros i H1 H2. apply where_true_iff in H1, H2. destruct (sm_disjoint _ _ S i) as (D & _). tauto.
  - intros _ i H. apply where_true_iff in H. destruct (sm_disjoint _ _ S i) as (_ & D2 & D3). rewrite !where_true_iff. tauto.
  - intros i H1 H2. apply where_true_iff in H1, H2. pose proof (proj1 (sm_unlabeled _ _ S i) (proj2 H2)). tauto.
  - apply NoDup_Permutation.
    + apply NoDup_app_iff. split; [apply (where_true_bounds _ _ L4)|]. split; [apply (where_true_bounds _ _ L5)|].
      intros i H1 H2. apply where_true_iff in H1, H2. pose proof (proj1 (sm_unlabeled _ _ S i) (proj2 H2)). tauto.
    + apply (where_true_bounds _ _ L1).
    + intros i. rewrite in_app_iff, !where_true_iff, L1, L4, L5. pose proof (sm_unlabeled _ _ S i). pose proof (sm_labeled _ _ S i).
      assert (D : on (m_labeled m) i \/ ~ on (m_labeled m) i) by (unfold on; destruct (nth (Z.to_nat i) (m_labeled m) false); [left; reflexivity|right; discriminate]).
      tauto.
Qed.

(* ------------------------------------------------------------------ inductive data *)
Lemma index_of_ok r k l : index_of r k = Ok l <-> get (r_indices r) k = Some l.
Proof. unfold index_of. destruct (get (r_indices r) k); split; congruence. Qed.
Lemma get_In {V} (d : dict V) k v : get d k = Some v -> In (k, v) d.
Proof.
  induction d as [|(a, w) d IH]; [discriminate|]. rewrite get_cons. destruct (String.eqb_spec a k) as [->|]; intros E; [left; congruence|right; auto].
Qed.
Lemma split_data_spec {A} (pre : prepared A) r s X y : split_data pre r s = Ok (X, y) <->
  exists idx p, get (r_indices r) s = Some idx /\ part_of pre r s p /\ rows_at (pt_X p) idx X /\ rows_at (labels_of p) idx y.
Proof.
  unfold split_data, part_of. split.
  - intros H. apply bind_ok in H as (idx & E1 & H). apply bind_ok in H as (p & E2 & H). apply bind_ok in H as (X' & E3 & H).
    apply bind_ok in H as (y' & E4 & H). injection H as <- <-. apply index_of_ok in E1. apply select_rows_spec in E3, E4.
    exists idx, p. split; [exact E1|]. split; [|split; assumption].
    destruct (String.eqb_spec (ref_of (r_refs r) s) "train") as [E|E]; [left; split; congruence|right; split; [exact E|]].
    destruct (pr_test pre); congruence.
  - intros (idx & p & E1 & P & E3 & E4). apply index_of_ok in E1. apply select_rows_spec in E3, E4. rewrite E1. cbn [bind].
    destruct P as [(E & ->)|(E & T)].
    + rewrite (proj2 (String.eqb_eq _ _) E). cbn [bind]. rewrite E3. cbn [bind]. unfold labels_of in E4. unfold labels_for_split. rewrite E4. reflexivity.
    + rewrite (proj2 (String.eqb_neq _ _) E), T. cbn [bind]. rewrite E3. cbn [bind]. unfold labels_of in E4. unfold labels_for_split. rewrite E4. reflexivity.
Qed.
Lemma labels_for_backend_spec {A} (p : part A) idx strict y : aligned p -> rows_at (labels_of p) idx y -> labels_for_backend p idx strict = Ok y.
Proof.
  intros (AL & AL2) R. pose proof (rows_at_range _ _ _ R) as F. pose proof (rows_at_nonneg _ _ _ R) as N.
  assert (M : (match idx with [] => -1 | _ :: _ => maxZ idx end) < lenZ (labels_of p)).
  { destruct idx as [|i idx]; [unfold lenZ; lia|]. rewrite Forall_forall in F. apply F, maxZ_In. discriminate. }
  unfold labels_for_backend. unfold labels_of in *. destruct (pt_labels p) as [l|].
  - destruct (Z.leb_spec (lenZ l) (match idx with [] => -1 | _ :: _ => maxZ idx end)); [lia|]. rewrite andb_false_r. cbn [bind].
    destruct (Z.ltb_spec (match idx with [] => -1 | _ :: _ => maxZ idx end) (lenZ l)); [|lia]. apply take_spec; assumption.
  - cbn [bind]. destruct (Z.ltb_spec (match idx with [] => -1 | _ :: _ => maxZ idx end) (lenZ (pt_y p))); [|lia]. apply take_spec; assumption.
Qed.
Lemma inductive_input_total {A} (pre : prepared A) r strict la un : aligned (pr_train pre) ->
  get (r_indices r) "train_labeled" = Some la -> get (r_indices r) "train_unlabeled" = Some un ->
  Forall (fun i => 0 <= i < lenZ (pt_X (pr_train pre))) la -> Forall (fun i => 0 <= i < lenZ (pt_X (pr_train pre))) un ->
  exists d, inductive_input pre r strict = Ok d /\ rows_at (pt_X (pr_train pre)) la (id_Xl d) /\
    rows_at (labels_of (pr_train pre)) la (id_yl d) /\ rows_at (pt_X (pr_train pre)) un (id_Xu d).
Proof.
  intros AL G1 G2 F1 F2. apply index_of_ok in G1, G2. destruct (rows_at_exists _ _ F1) as (Xl & R1). destruct (rows_at_exists _ _ F2) as (Xu & R2).
  assert (F3 : Forall (fun i => 0 <= i < lenZ (labels_of (pr_train pre))) la).
  { eapply Forall_impl; [|exact F1]. destruct AL as (AL1 & AL2). unfold lenZ. cbn. intros. rewrite AL2. lia. }
  destruct (rows_at_exists _ _ F3) as (yl & R3). pose proof (labels_for_backend_spec _ _ strict _ AL R3) as L.
  pose proof (rows_at_length _ _ _ R1). pose proof (rows_at_length _ _ _ R3).
  apply select_rows_spec in R1 as R1', R2 as R2'. unfold inductive_input. rewrite G1. cbn [bind]. rewrite G2. cbn [bind].
  rewrite R1'. cbn [bind]. rewrite R2'. cbn [bind]. rewrite L. cbn [bind].
  assert (E : lenZ Xl =? lenZ yl = true) by (unfold lenZ; lia). rewrite E. rewrite andb_false_r.
  eexists. split; [reflexivity|]. cbn. auto.
Qed.

Lemma put_report_get {V} (d : dict V) k v k' : get (put_report d k v) k' = if String.eqb k k' then Some v else get d k'.
Proof.
  induction d as [|(a, w) d IH]; cbn [put_report]; [apply get_cons|].
  destruct (String.eqb_spec a k) as [->|N]; rewrite !get_cons.
  - destruct (String.eqb_spec k k'); reflexivity.
  - rewrite IH. destruct (String.eqb_spec a k') as [->|]; [|reflexivity]. destruct (String.eqb_spec k k'); congruence.
Qed.
Lemma put_report_in {V} (d : dict V) k v x : In x (map fst (put_report d k v)) -> x = k \/ In x (map fst d).
Proof.
  induction d as [|(a, w) d IH]; cbn [put_report]; [cbn; intuition congruence|].
  destruct (String.eqb a k); cbn; [tauto|]. intros [<-|H]; [tauto|]. destruct (IH H); tauto.
Qed.
Lemma put_report_keys {V} (d : dict V) k v : NoDup (map fst d) -> NoDup (map fst (put_report d k v)).
Proof.
  induction d as [|(a, w) d IH]; intros ND; cbn [put_report]; [constructor; [intros []|constructor]|].
  inversion ND as [|? ? N1 N2]; subst. destruct (String.eqb_spec a k); cbn; [constructor; assumption|].
  constructor; [|apply IH, N2]. intros H. apply put_report_in in H. tauto.
Qed.
Lemma evaluate_inductive_from_spec {A} pp (pre : prepared A) r metrics : forall splits out res,
  evaluate_inductive_from pp pre r splits metrics out = Ok res -> NoDup (map fst out) ->
  NoDup (map fst res) /\ forall s, (In s splits -> exists X y p yp sc, split_data pre r s = Ok (X, y) /\ pp X = Ok p /\ labels_1d p = Ok yp /\
      compute_metrics y yp metrics = Ok sc /\ get res s = Some sc) /\
    (~ In s splits -> get res s = get out s).
Proof.
  induction splits as [|s0 splits IH]; intros out res H ND; cbn [evaluate_inductive_from] in H.
  - injection H as <-. split; [exact ND|]. intros s. split; [intros []|reflexivity].
  - apply bind_ok in H as ((X, y) & E1 & H). apply bind_ok in H as (p & E2 & H). apply bind_ok in H as (yp & E3 & H). apply bind_ok in H as (sc & E4 & H).
    destruct (IH _ _ H (put_report_keys _ _ _ ND)) as (ND' & K). split; [exact ND'|]. intros s. destruct (K s) as (K1 & K2).
    destruct (in_dec string_dec s splits) as [HI|HI].
    + split; [intros _; apply K1, HI|]. intros N. exfalso. apply N. right; exact HI.
    + specialize (K2 HI). rewrite put_report_get in K2. destruct (String.eqb_spec s0 s) as [->|NE].
      * split; [|intros N; exfalso; apply N; left; reflexivity]. intros _. cbn in *. exists X, y, p, yp, sc. auto.
      * split; [intros [->|HI']; contradiction|]. intros _. exact K2.
Qed.

(* ------------------------------------------------------------------ masks over nodes *)
Lemma mask_from_indices_spec n idx off : 0 <= n -> Forall (fun i => 0 <= i + off < n) idx ->
  exists m, mask_from_indices n idx off = Ok m /\ lenZ m = n /\ forall j, 0 <= j -> (on m j <-> exists i, In i idx /\ j = i + off).
Proof.
  intros Hn F. unfold mask_from_indices. cbv zeta.
  set (norm := fun i => if i + off <? 0 then i + off + n else i + off).
  assert (NI : forall i, In i idx -> norm i = i + off).
  { intros i HI. rewrite Forall_forall in F. specialize (F i HI). unfold norm. destruct (Z.ltb_spec (i + off) 0); lia. }
  match goal with |- context [existsb ?f idx] => assert (EX : existsb f idx = false) end.
  { destruct (existsb _ idx) eqn:E; [|reflexivity]. apply existsb_exists in E as (i & HI & E). rewrite Forall_forall in F. specialize (F i HI).
    change ((norm i <? 0) || (n <=? norm i) = true) in E. rewrite (NI i HI) in E. lia. }
  rewrite EX. eexists. split; [reflexivity|]. split; [unfold lenZ; rewrite map_length, arange_length; lia|]. intros j Hj. unfold on.
  assert (IFF : memZ j (map norm idx) = true <-> exists i, In i idx /\ j = i + off).
  { rewrite memZ_In, in_map_iff. split.
    - intros (i & E & HI). exists i. split; [exact HI|]. rewrite <- E. apply NI, HI.
    - intros (i & HI & E). exists i. split; [rewrite NI; [symmetry; exact E|exact HI]|exact HI]. }
  destruct (Z_lt_le_dec j n) as [L|L].
  - rewrite nth_arange_map by lia. exact IFF.
  - rewrite nth_overflow by (rewrite map_length, arange_length; lia). split; [discriminate|]. intros (i & HI & ->).
    rewrite Forall_forall in F. specialize (F i HI). lia.
Qed.
Lemma on_iff_nonneg m1 m2 i : (forall j, 0 <= j -> on m1 j -> on m2 j) -> on m1 i -> on m2 i.
Proof.
  intros H O. destruct (Z_lt_le_dec i 0) as [L|L]; [|apply H; assumption]. apply on_neg; [exact L|]. apply H; [lia|]. apply (on_neg _ _ L), O.
Qed.

Section Masks.
Variables (n_train : Z) (n_test : option Z) (r : inductive_result) (tr va te la un : list Z).
Hypothesis NT : 0 <= n_train.
Hypothesis NS : match n_test with Some t => 0 <= t | None => True end.
Hypothesis SD : sound_dictionary n_train n_test r tr va te la un.
Hypothesis RL : ref_of (r_refs r) "train_labeled" = "train".
Hypothesis RU : ref_of (r_refs r) "train_unlabeled" = "train".
Hypothesis RT : ref_of (r_refs r) "test" = "train" \/ ref_of (r_refs r) "test" = "test".
Definition test_size : option Z := if String.eqb (ref_of (r_refs r) "test") "test" then n_test else None.
Definition node_count : Z := n_train + match test_size with Some t => t | None => 0 end.

Lemma node_count_ge : n_train <= node_count.
Proof using All. unfold node_count, test_size. destruct (String.eqb _ _); [destruct n_test|]; lia. Qed.
Lemma nodes_in_range k idx : In k ["train"; "val"; "test"; "train_labeled"; "train_unlabeled"] -> get (r_indices r) k = Some idx ->
  Forall (fun i => 0 <= i + (if String.eqb (ref_of (r_refs r) k) "train" then 0 else n_train) < node_count) idx.
Proof using All.
  intros K G. destruct idx as [|i0 idx0] eqn:EI; [constructor|]. rewrite <- EI in *.
  assert (NE : idx <> []) by (rewrite EI; discriminate). pose proof (sd_bounds _ _ _ _ _ _ _ _ SD _ _ (get_In _ _ _ G) NE) as B.
  pose proof node_count_ge as NC. apply Forall_forall. intros i HI. destruct (String.eqb_spec (ref_of (r_refs r) k) "train") as [E|E].
  - destruct B as (_ & B). specialize (B i HI). lia.
  - destruct B as (nt & EN & (_ & B)). specialize (B i HI).
    assert (KT : k = "test").
    { cbn in K. destruct K as [<-|[<-|[<-|[<-|[<-|[]]]]]]; try reflexivity; exfalso; apply E;
        first [exact (sd_train_ref _ _ _ _ _ _ _ _ SD)|exact (sd_val_ref _ _ _ _ _ _ _ _ SD)|assumption]. }
    subst k. destruct RT as [R|R]; [contradiction|]. unfold node_count, test_size. rewrite R, EN. cbn. lia.
Qed.
Lemma one_mask k idx : In k ["train"; "val"; "test"; "train_labeled"; "train_unlabeled"] -> get (r_indices r) k = Some idx ->
  exists m, mask_from_indices node_count idx (if String.eqb (ref_of (r_refs r) k) "train" then 0 else n_train) = Ok m /\ lenZ m = node_count /\
    forall j, 0 <= j -> (on m j <-> exists i, In i idx /\ j = node_of n_train r k i).
Proof using All.
  intros K G. pose proof node_count_ge as NC.
  destruct (mask_from_indices_spec node_count idx _ ltac:(lia) (nodes_in_range k idx K G)) as (m & E & L & O).
  exists m. split; [exact E|]. split; [exact L|]. intros j Hj. rewrite (O j Hj). unfold node_of.
  destruct (String.eqb (ref_of (r_refs r) k) "train"); split; intros (i & HI & X); exists i; (split; [exact HI|lia]).
Qed.
Lemma build_masks_spec : exists m, build_masks n_train test_size r = Ok m /\ sound_masks node_count m /\
  forall k mask idx, In (k, mask) [("train", m_train m); ("val", m_val m); ("test", m_test m); ("train_labeled", m_labeled m); ("train_unlabeled", m_unlabeled m)] ->
    get (r_indices r) k = Some idx -> forall j, 0 <= j -> (on mask j <-> exists i, In i idx /\ j = node_of n_train r k i).
Proof using All.
  destruct (one_mask "train" tr) as (m1 & E1 & L1 & O1); [cbn; tauto|exact (sd_train _ _ _ _ _ _ _ _ SD)|].
  destruct (one_mask "val" va) as (m2 & E2 & L2 & O2); [cbn; tauto|exact (sd_val _ _ _ _ _ _ _ _ SD)|].
  destruct (one_mask "test" te) as (m3 & E3 & L3 & O3); [cbn; tauto|exact (sd_test _ _ _ _ _ _ _ _ SD)|].
  destruct (one_mask "train_labeled" la) as (m4 & E4 & L4 & O4); [cbn; tauto|exact (sd_labeled _ _ _ _ _ _ _ _ SD)|].
  destruct (one_mask "train_unlabeled" un) as (m5 & E5 & L5 & O5); [cbn; tauto|exact (sd_unlabeled _ _ _ _ _ _ _ _ SD)|].
  exists {| m_train := m1; m_val := m2; m_test := m3; m_labeled := m4; m_unlabeled := m5 |}. split; [|split].
  - unfold build_masks. fold test_size. fold node_count. unfold index_of.
    rewrite (sd_train _ _ _ _ _ _ _ _ SD). cbn [bind]. fold node_count. rewrite E1. cbn [bind].
    rewrite (sd_val _ _ _ _ _ _ _ _ SD). cbn [bind]. rewrite E2. cbn [bind].
    rewrite (sd_test _ _ _ _ _ _ _ _ SD). cbn [bind]. rewrite E3. cbn [bind].
    rewrite (sd_labeled _ _ _ _ _ _ _ _ SD). cbn [bind]. rewrite E4. cbn [bind].
    rewrite (sd_unlabeled _ _ _ _ _ _ _ _ SD). cbn [bind]. rewrite E5. reflexivity.
  - assert (NO : forall k, ref_of (r_refs r) k = "train" -> forall i, node_of n_train r k i = i) by (intros k E i; unfold node_of; rewrite E; reflexivity).
    pose proof (sd_labels_cover _ _ _ _ _ _ _ _ SD) as P.
    constructor; cbn [m_train m_val m_test m_labeled m_unlabeled].
    + intros l [<-|[<-|[<-|[<-|[<-|[]]]]]]; assumption.
    + intros i. apply on_iff_nonneg. intros j Hj. rewrite (O4 j Hj), (O1 j Hj). intros (x & HI & ->). exists x.
      rewrite !NO by first [assumption|exact (sd_train_ref _ _ _ _ _ _ _ _ SD)]. split; [|reflexivity]. apply (Permutation_in _ P). apply in_or_app. left; exact HI.
    + assert (X : forall j, 0 <= j -> (on m5 j <-> on m1 j /\ ~ on m4 j)).
      { intros j Hj. rewrite (O5 j Hj), (O1 j Hj), (O4 j Hj). split.
        - intros (x & HI & ->). rewrite NO by assumption. split.
          + exists x. rewrite NO by exact (sd_train_ref _ _ _ _ _ _ _ _ SD). split; [|reflexivity]. apply (Permutation_in _ P). apply in_or_app. right; exact HI.
          + intros (y & HJ & E). rewrite NO in E by assumption. subst y. exact (sd_labels_apart _ _ _ _ _ _ _ _ SD _ HJ HI).
        - intros ((x & HI & E) & N). rewrite NO in E by exact (sd_train_ref _ _ _ _ _ _ _ _ SD). subst x. exists j. rewrite NO by assumption.
          split; [|reflexivity]. apply (Permutation_in _ (Permutation_sym P)) in HI. apply in_app_or in HI as [HI|HI]; [|exact HI].
          exfalso. apply N. exists j. rewrite NO by assumption. auto. }
      intros i. destruct (Z_lt_le_dec i 0) as [L|L]; [|apply X, L]. rewrite !(on_neg _ i L). apply X. lia.
    + assert (X : forall j, 0 <= j -> ~ (on m1 j /\ on m2 j) /\ ~ (on m1 j /\ on m3 j) /\ ~ (on m2 j /\ on m3 j)).
      { intros j Hj. rewrite (O1 j Hj), (O2 j Hj), (O3 j Hj).
        assert (T : forall x, In x te -> ~ (exists i, In i tr /\ node_of n_train r "test" x = node_of n_train r "train" i) /\
                                       ~ (exists i, In i va /\ node_of n_train r "test" x = node_of n_train r "val" i)).
        { intros x HX.
          assert (NE : te <> []) by (intros ->; destruct HX).
          pose proof (sd_bounds _ _ _ _ _ _ _ _ SD _ _ (get_In _ _ _ (sd_test _ _ _ _ _ _ _ _ SD)) NE) as B.
          destruct RT as [R|R].
          - destruct (sd_test_apart _ _ _ _ _ _ _ _ SD R x HX) as (N1 & N2). rewrite (NO "test" R).
            split; intros (i & HI & E); rewrite NO in E by first [exact (sd_train_ref _ _ _ _ _ _ _ _ SD)|exact (sd_val_ref _ _ _ _ _ _ _ _ SD)]; subst i; contradiction.
          - rewrite R in B. cbn in B. destruct B as (nt & EN & (_ & B)). specialize (B x HX).
            assert (EX : node_of n_train r "test" x = n_train + x) by (unfold node_of; rewrite R; reflexivity). rewrite EX.
            split; intros (i & HI & E); rewrite NO in E by first [exact (sd_train_ref _ _ _ _ _ _ _ _ SD)|exact (sd_val_ref _ _ _ _ _ _ _ _ SD)].
            + assert (NE' : tr <> []) by (intros ->; destruct HI).
              pose proof (sd_bounds _ _ _ _ _ _ _ _ SD _ _ (get_In _ _ _ (sd_train _ _ _ _ _ _ _ _ SD)) NE') as B'.
              rewrite (sd_train_ref _ _ _ _ _ _ _ _ SD) in B'. destruct B' as (_ & B'). specialize (B' i HI). lia.
            + assert (NE' : va <> []) by (intros ->; destruct HI).
              pose proof (sd_bounds _ _ _ _ _ _ _ _ SD _ _ (get_In _ _ _ (sd_val _ _ _ _ _ _ _ _ SD)) NE') as B'.
              rewrite (sd_val_ref _ _ _ _ _ _ _ _ SD) in B'. destruct B' as (_ & B'). specialize (B' i HI). lia. }
        split; [|split].
        - intros ((x & HI & E) & (y & HJ & E')). rewrite NO in E by exact (sd_train_ref _ _ _ _ _ _ _ _ SD).
          rewrite NO in E' by exact (sd_val_ref _ _ _ _ _ _ _ _ SD). subst. subst. exact (sd_train_val _ _ _ _ _ _ _ _ SD _ HI HJ).
        - intros ((x & HI & E) & (y & HJ & E')). destruct (T y HJ) as (T1 & _). apply T1. exists x. split; [exact HI|congruence].
        - intros ((x & HI & E) & (y & HJ & E')). destruct (T y HJ) as (_ & T1). apply T1. exists x. split; [exact HI|congruence]. }
      intros i. destruct (Z_lt_le_dec i 0) as [L|L]; [|apply X, L]. rewrite !(on_neg _ i L). apply X. lia.
  - intros k mask idx HI G j Hj. cbn [In m_train m_val m_test m_labeled m_unlabeled] in HI.
    destruct HI as [E|[E|[E|[E|[E|[]]]]]]; injection E as <- <-.
    + rewrite (sd_train _ _ _ _ _ _ _ _ SD) in G. injection G as <-. apply O1, Hj.
    + rewrite (sd_val _ _ _ _ _ _ _ _ SD) in G. injection G as <-. apply O2, Hj.
    + rewrite (sd_test _ _ _ _ _ _ _ _ SD) in G. injection G as <-. apply O3, Hj.
    + rewrite (sd_labeled _ _ _ _ _ _ _ _ SD) in G. injection G as <-. apply O4, Hj.
    + rewrite (sd_unlabeled _ _ _ _ _ _ _ _ SD) in G. injection G as <-. apply O5, Hj.
Qed.
End Masks.

(* ------------------------------------------------------------------ labels and evaluation *)
Lemma hide_spec y mask i : length mask = length y -> nth_error (hide y mask) i = match nth_error y i with
  | Some v => Some (if nth i mask false then -1 else v) | None => None end.
Proof.
  unfold hide. revert mask i. induction y as [|v y IH]; intros [|b mask] i H; try discriminate.
  - destruct i; reflexivity.
  - destruct i as [|i]; [reflexivity|]. cbn in *. apply IH. lia.
Qed.

Fixpoint positions_from (k : nat) (mask : list bool) : list nat :=
  match mask with [] => [] | b :: r => if b then k :: positions_from (S k) r else positions_from (S k) r end.
Lemma positions_from_In mask : forall k i, In i (positions_from k mask) <-> (k <= i)%nat /\ nth_error mask (i - k) = Some true.
Proof.
  induction mask as [|b mask IH]; intros k i; cbn [positions_from].
  - split; [intros []|]. intros (_ & H). destruct (i - k)%nat; discriminate.
  - assert (X : In i (positions_from (S k) mask) <-> (k < i)%nat /\ nth_error (b :: mask) (i - k) = Some true).
    { rewrite IH. destruct (Nat.ltb_spec k i).
      - replace (i - k)%nat with (S (i - S k)) by lia. cbn. intuition lia.
      - intuition lia. }
    destruct b; [cbn [In]|]; rewrite X.
    + split; [intros [->|(H & E)]; [split; [lia|rewrite Nat.sub_diag; reflexivity]|split; [lia|exact E]]|].
      intros (H & E). destruct (Nat.eqb_spec k i); [left; assumption|right; split; [lia|exact E]].
    + split; [intros (H & E); split; [lia|exact E]|]. intros (H & E). split; [|exact E]. destruct (Nat.eqb_spec k i); [|lia]. subst. rewrite Nat.sub_diag in E. discriminate.
Qed.
Lemma positions_from_sorted mask : forall k a b i j, (a < b)%nat -> nth_error (positions_from k mask) a = Some i -> nth_error (positions_from k mask) b = Some j -> (i < j)%nat.
Proof.
  induction mask as [|c mask IH]; intros k a b i j L E1 E2; cbn [positions_from] in *; [destruct a; discriminate|].
  destruct c; [|eapply IH; eauto]. destruct b as [|b]; [lia|]. cbn in E2. destruct a as [|a]; [|eapply (IH _ a b); eauto; lia].
  cbn in E1. injection E1 as <-. apply nth_error_In in E2. apply positions_from_In in E2. lia.
Qed.
Lemma positions_marked mask : marked_positions mask (positions_from 0 mask).
Proof.
  split; [|apply positions_from_sorted]. intros i. rewrite positions_from_In. rewrite Nat.sub_0_r. intuition lia.
Qed.
Lemma keep_from {A} (l : list A) : forall mask k, length mask = length l -> Forall2 (fun i v => nth_error l (i - k) = Some v /\ (k <= i)%nat) (positions_from k mask) (keep l mask).
Proof.
  unfold keep. induction l as [|v l IH]; intros [|b mask] k H; try discriminate; cbn; [constructor|].
  assert (X : Forall2 (fun i w => nth_error (v :: l) (i - k) = Some w /\ (k <= i)%nat) (positions_from (S k) mask) (map fst (filter snd (combine l mask)))).
  { cbn in H. specialize (IH mask (S k) ltac:(lia)). revert IH. generalize (positions_from (S k) mask) (map fst (filter snd (combine l mask))). intros p q F.
    induction F as [|i w p q (E & L) F IH']; constructor; [|exact IH']. split; [|lia]. replace (i - k)%nat with (S (i - S k)) by lia. exact E. }
  destruct b; [constructor; [rewrite Nat.sub_diag; split; [reflexivity|lia]|exact X]|exact X].
Qed.
Lemma keep_entries {A} (l : list A) mask : length mask = length l -> entries_at l (positions_from 0 mask) (keep l mask).
Proof.
  intros H. pose proof (keep_from l mask 0 H) as F. unfold entries_at. revert F. generalize (positions_from 0 mask) (keep l mask). intros p q F.
  induction F as [|i v p q (E & _) F IH]; constructor; [rewrite Nat.sub_0_r in E; exact E|exact IH].
Qed.
Lemma labels_1d_spec o l : labels_1d o = Ok l <-> predicted o l.
Proof.
  destruct o as [q|rows]; cbn; [split; congruence|]. rewrite argmax_rows_spec. split; intros F; induction F; constructor; try assumption; apply argmax_spec; assumption.
Qed.
Lemma evaluate_transductive_from_spec y yp m metrics : forall splits out res,
  evaluate_transductive_from y yp m splits metrics out = Ok res -> NoDup (map fst out) ->
  NoDup (map fst res) /\ forall s, (In s splits -> exists mask sc, split_mask m s = Some mask /\ length mask = length y /\ length mask = length yp /\
      compute_metrics (keep y mask) (keep yp mask) metrics = Ok sc /\ get res s = Some sc) /\
    (~ In s splits -> get res s = get out s).
Proof.
  induction splits as [|s0 splits IH]; intros out res H ND; cbn [evaluate_transductive_from] in H.
  - injection H as <-. split; [exact ND|]. intros s. split; [intros []|reflexivity].
  - destruct (split_mask m s0) as [mask|] eqn:EM; [|discriminate]. destruct (Nat.eqb_spec (length mask) (length y)) as [L1|]; [|discriminate].
    destruct (Nat.eqb_spec (length mask) (length yp)) as [L2|]; [|discriminate]. cbn [negb] in H. apply bind_ok in H as (sc & E & H).
    destruct (IH _ _ H (put_report_keys _ _ _ ND)) as (ND' & K). split; [exact ND'|]. intros s. destruct (K s) as (K1 & K2).
    destruct (in_dec string_dec s splits) as [HI|HI].
    + split; [intros _; apply K1, HI|]. intros N. exfalso. apply N. right; exact HI.
    + specialize (K2 HI). rewrite put_report_get in K2. destruct (String.eqb_spec s0 s) as [->|NE].
      * split; [|intros N; exfalso; apply N; left; reflexivity]. intros _. exists mask, sc. auto.
      * split; [intros [->|HI']; contradiction|]. intros _. exact K2.
Qed.
Lemma evaluate_labels t p metrics : evaluate (Labels t) (Labels p) metrics = compute_metrics t p metrics.
Proof. reflexivity. Qed.
Lemma get_keys {V} (d : dict V) k : In k (map fst d) <-> get d k <> None.
Proof.
  induction d as [|(a, w) d IH]; [cbn; split; [intros []|congruence]|]. rewrite get_cons. cbn. destruct (String.eqb_spec a k) as [->|N]; [split; [congruence|tauto]|].
  rewrite <- IH. tauto.
Qed.
Lemma on_nth_error m i : 0 <= i -> (on m i <-> nth_error m (Z.to_nat i) = Some true).
Proof.
  intros H. unfold on. split.
  - intros E. destruct (nth_error m (Z.to_nat i)) as [b|] eqn:N; [rewrite (nth_error_nth _ _ _ N) in E; congruence|].
    apply nth_error_None in N. rewrite nth_overflow in E by exact N. discriminate.
  - intros E. apply nth_error_nth. exact E.
Qed.

Lemma argmax_first row j : argmax row = Ok (Z.of_nat j) -> first_max row j.
Proof. intros H. apply argmax_spec in H as (k & E & F). assert (j = k) by lia. subst. exact F. Qed.
Lemma where_true_count m : lenZ (where_true m) = lenZ (filter (fun b => b) m).
Proof.
  unfold where_true, lenZ. f_equal. unfold arange, lenZ. rewrite Nat2Z.id.
  assert (X : forall (l : list bool) k, length (filter (fun i => nth (Z.to_nat i - k) l false) (map Z.of_nat (seq k (length l)))) = length (filter (fun b => b) l)).
  { induction l as [|b l IH]; intros k; [reflexivity|]. cbn [length seq map filter]. rewrite Nat2Z.id, Nat.sub_diag. change (nth 0 (b :: l) false) with b.
    assert (Y : length (filter (fun i => nth (Z.to_nat i - k) (b :: l) false) (map Z.of_nat (seq (S k) (length l)))) = length (filter (fun b => b) l)).
    { rewrite <- (IH (S k)). f_equal. apply filter_ext_in. intros i HI. apply in_map_iff in HI as (j & <- & HJ). apply in_seq in HJ. rewrite Nat2Z.id.
      replace (j - k)%nat with (S (j - S k)) by lia. reflexivity. }
    destruct b; cbn [length]; rewrite Y; reflexivity. }
  specialize (X m 0%nat). rewrite <- X. f_equal. apply filter_ext. intros i. rewrite Nat.sub_0_r. reflexivity.
Qed.

Lemma evaluate_inductive_from_runs {A} pp (pre : prepared A) r metrics : forall splits out,
  (forall s, In s splits -> exists X y p yp sc, split_data pre r s = Ok (X, y) /\ pp X = Ok p /\ labels_1d p = Ok yp /\ compute_metrics y yp metrics = Ok sc) ->
  exists res, evaluate_inductive_from pp pre r splits metrics out = Ok res.
Proof.
  induction splits as [|s splits IH]; intros out H; cbn [evaluate_inductive_from]; [eauto|].
  destruct (H s (or_introl eq_refl)) as (X & y & p & yp & sc & -> & E2 & E3 & E4). cbn [bind fst snd]. rewrite E2. cbn [bind]. rewrite E3. cbn [bind]. rewrite E4. cbn [bind].
  apply IH. intros s' HS. apply H. right; exact HS.
Qed.
Lemma compute_metrics_runs y yp metrics : (forall n, In n metrics -> In n ["accuracy"; "balanced_accuracy"; "macro_f1"]) -> exists sc, compute_metrics y yp metrics = Ok sc.
Proof.
  intros H. unfold compute_metrics. apply (compute_from_spec y yp metrics [] (NoDup_nil _)). apply Forall_forall. intros n HN. specialize (H n HN).
  cbn in H. destruct H as [<-|[<-|[<-|[]]]]; cbn; discriminate.
Qed.
