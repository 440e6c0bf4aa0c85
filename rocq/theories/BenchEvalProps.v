(* Property theorems about the benchmark runner's data handling: C69 row selection, C70 inductive data and
   evaluation, C71 transductive data and evaluation, C72 which rows preprocessing is fitted on. *)
From Coq Require Import List ZArith Lia Bool QArith String Permutation ZifyBool ZifyNat.
From Verif Require Import Prelude ListFacts SamplingModel SampleServiceModel SampleServiceSpec SampleServiceProofs MetricsModel MetricsSpec MetricsProofs BenchEvalModel BenchEvalSpec BenchEvalProofs.
Import ListNotations.
Local Open Scope string_scope.
Local Open Scope Z_scope.
Local Open Scope list_scope.
Local Notation length := List.length.

(* ------------------------------------------------------------------ C69 row selection *)
(* exactly the asked-for rows in the asked-for order, and success exactly when all of them exist *)
Theorem C69_selects_exactly {A} (X : list A) idx out : select_rows X idx = Ok out <-> rows_at X idx out.
Proof. apply select_rows_spec. Qed.
Theorem C69_success_iff_in_range {A} (X : list A) idx : (exists out, select_rows X idx = Ok out) <-> Forall (fun i => 0 <= i < lenZ X) idx.
Proof.
  split.
  - intros (out & H). apply select_rows_spec in H. exact (rows_at_range _ _ _ H).
  - intros F. destruct (rows_at_exists _ _ F) as (out & R). exists out. apply select_rows_spec, R.
Qed.
(* a negative number is refused instead of counting from the end *)
Theorem C69_negative_refused {A} (X : list A) idx i : In i idx -> i < 0 -> select_rows X idx = Err BenchError.
Proof.
  intros HI L. unfold select_rows. destruct (as_idx_spec idx _ eq_refl) as [(N & _)|(_ & ->)]; [|reflexivity].
  rewrite Forall_forall in N. specialize (N i HI). lia.
Qed.
Theorem C69_too_large_refused {A} (X : list A) idx i : Forall (fun i => 0 <= i) idx -> In i idx -> lenZ X <= i -> select_rows X idx = Err IndexError.
Proof.
  intros N HI L. unfold select_rows. destruct (as_idx_spec idx _ eq_refl) as [(_ & ->)|(N' & _)]; [|contradiction]. cbn [bind].
  destruct (take_fails X idx N) as [F|F]; [|exact F]. rewrite Forall_forall in F. specialize (F i HI). lia.
Qed.
Example C69_example : select_rows [10; 11; 12; 13] [3; 0; 0] = Ok [13; 10; 10] /\ select_rows [10; 11] [0; -1] = Err BenchError /\ select_rows [10; 11] [2] = Err IndexError.
Proof. repeat split; vm_compute; reflexivity. Qed.

(* graph data: arrays with one row per node are cut to the chosen nodes, arrays too short to hold them and other
   objects are kept *)
Theorem C69_graph_rows {A} as_int subgraph (X : graph_map A) idx out k rows :
  select_map A as_int subgraph X idx = Ok out -> k <> "edge_index" -> get X k = Some (FRows rows) ->
  Forall (fun i => 0 <= i) idx /\
  ((Forall (fun i => i < lenZ rows) idx /\ exists rows', rows_at rows idx rows' /\ get out k = Some (FRows rows')) \/
   (~ Forall (fun i => i < lenZ rows) idx /\ get out k = Some (FRows rows))).
Proof. intros H N G. eapply select_map_rows; eauto. Qed.
Theorem C69_graph_other {A} as_int subgraph (X : graph_map A) idx out k a :
  select_map A as_int subgraph X idx = Ok out -> k <> "edge_index" -> get X k = Some (FOther a) -> get out k = Some (FOther a).
Proof. intros H N G. eapply select_map_other; eauto. Qed.
(* the edges of the result join, by their new numbers, exactly the rows that were joined before *)
Theorem C69_graph_edges_follow_rows {A} as_int subgraph (X : graph_map A) idx out e x :
  subgraph_ok subgraph -> NoDup idx -> select_map A as_int subgraph X idx = Ok out ->
  get X "edge_index" = Some (FEdges e) -> get X "x" = Some (FRows x) -> Forall (fun i => i < lenZ x) idx ->
  exists e' x', get out "edge_index" = Some (FEdges e') /\ get out "x" = Some (FRows x') /\ rows_at x idx x' /\
    (forall a b, In (a, b) e' -> 0 <= a /\ 0 <= b /\ exists u v, In (u, v) e /\ In u idx /\ In v idx /\
       nth_error x' (Z.to_nat a) = nth_error x (Z.to_nat u) /\ nth_error x' (Z.to_nat b) = nth_error x (Z.to_nat v)) /\
    (forall u v, In (u, v) e -> In u idx -> In v idx -> exists a b, In (a, b) e' /\ 0 <= a /\ 0 <= b /\
       nth_error x' (Z.to_nat a) = nth_error x (Z.to_nat u) /\ nth_error x' (Z.to_nat b) = nth_error x (Z.to_nat v)).
Proof.
  intros SUB ND H GE GX F. destruct (select_map_edges A as_int subgraph SUB X idx out e H GE ND) as (e' & GE' & IND).
  destruct (select_map_rows A as_int subgraph X idx out "x" x H ltac:(discriminate) GX) as (NN & [(_ & x' & R & GX')|(NF & _)]); [|contradiction].
  exists e', x'. split; [exact GE'|]. split; [exact GX'|]. split; [exact R|]. split.
  - intros a b HI. destruct (induced_in e idx e' a b IND HI) as (P1 & P2 & u & v & HE & N1 & N2). split; [exact P1|]. split; [exact P2|].
    exists u, v. split; [exact HE|]. split; [eapply nth_error_In; eauto|]. split; [eapply nth_error_In; eauto|].
    split; eapply rows_at_nth; eauto.
  - intros u v HE Hu Hv. destruct (induced_complete e idx e' u v IND HE Hu Hv) as (a & b & HI & P1 & P2 & N1 & N2).
    exists a, b. split; [exact HI|]. split; [exact P1|]. split; [exact P2|]. split; eapply rows_at_nth; eauto.
Qed.
(* number of edges: nothing is duplicated *)
Theorem C69_graph_edge_count {A} as_int subgraph (X : graph_map A) idx out e :
  subgraph_ok subgraph -> NoDup idx -> select_map A as_int subgraph X idx = Ok out -> get X "edge_index" = Some (FEdges e) ->
  exists e', get out "edge_index" = Some (FEdges e') /\ length e' = length (filter (fun p => memZ (fst p) idx && memZ (snd p) idx) e).
Proof.
  intros SUB ND H GE. destruct (select_map_edges A as_int subgraph SUB X idx out e H GE ND) as (e' & GE' & IND). exists e'. split; [exact GE'|].
  unfold induced in IND. symmetry. clear - IND. induction IND; cbn; congruence.
Qed.

(* a subgraph function that meets the contract *)
Fixpoint position (i : Z) (idx : list Z) (k : Z) : Z := match idx with [] => 0 | x :: r => if x =? i then k else position i r (k + 1) end.
Definition demo_subgraph (e : list (Z * Z)) (idx : list Z) (n : option Z) : result (list (Z * Z)) :=
  Ok (map (fun p => (position (fst p) idx 0, position (snd p) idx 0)) (filter (fun p => memZ (fst p) idx && memZ (snd p) idx) e)).
Lemma position_spec i idx : forall k, In i idx -> 0 <= k -> k <= position i idx k /\ nth_error idx (Z.to_nat (position i idx k - k)) = Some i.
Proof.
  induction idx as [|x r IH]; intros k HI Hk; [destruct HI|]. cbn [position]. destruct (Z.eqb_spec x i) as [->|N].
  - split; [lia|]. rewrite Z.sub_diag. reflexivity.
  - destruct HI as [->|HI]; [congruence|]. destruct (IH (k + 1) HI ltac:(lia)) as (L & E). split; [lia|].
    replace (Z.to_nat (position i r (k + 1) - k)) with (S (Z.to_nat (position i r (k + 1) - (k + 1)))) by lia. exact E.
Qed.
Lemma demo_subgraph_ok : subgraph_ok demo_subgraph.
Proof.
  intros e idx n out _ E. injection E as <-. unfold induced.
  assert (X : forall p, In p (filter (fun p => memZ (fst p) idx && memZ (snd p) idx) e) -> In (fst p) idx /\ In (snd p) idx).
  { intros p HI. apply filter_In in HI as (_ & HI). apply andb_true_iff in HI as (H1 & H2). split; apply memZ_In; assumption. }
  revert X. generalize (filter (fun p => memZ (fst p) idx && memZ (snd p) idx) e). intros l X.
  induction l as [|p l IH]; constructor; [|apply IH; intros q HQ; apply X; right; exact HQ].
  destruct (X p (or_introl eq_refl)) as (H1 & H2). destruct (position_spec _ _ 0 H1 ltac:(lia)) as (A1 & A2). destruct (position_spec _ _ 0 H2 ltac:(lia)) as (B1 & B2).
  rewrite Z.sub_0_r in A2, B2. split; cbn; auto.
Qed.
Definition demo_graph : graph_map Z :=
  [("x", FRows [100; 101; 102; 103]); ("edge_index", FEdges [(0, 1); (1, 2); (2, 3); (3, 0)]); ("name", FOther 7); ("classes", FRows [8; 9])].
Example C69_example_graph : select_map Z (fun z => Some z) demo_subgraph demo_graph [3; 2; 0] =
  Ok [("edge_index", FEdges [(1, 0); (0, 2)]); ("x", FRows [103; 102; 100]); ("name", FOther 7); ("classes", FRows [8; 9])].
Proof. vm_compute. reflexivity. Qed.

(* finding: edge weights are one per edge, but they are cut with the node numbers; the result gives the edge
   3 - 0 (weight 40) the weight 10 of the edge 0 - 1, and another number of weights than of edges *)
Theorem C69_edge_weight_refuted : exists (X : graph_map Z) idx out w e' w',
  get X "edge_index" = Some (FEdges [(0, 1); (1, 2); (2, 3); (3, 0)]) /\ get X "edge_weight" = Some (FRows w) /\ length w = 4%nat /\
  NoDup idx /\ select_map Z (fun z => Some z) demo_subgraph X idx = Ok out /\
  get out "edge_index" = Some (FEdges e') /\ get out "edge_weight" = Some (FRows w') /\ length e' <> length w'.
Proof.
  exists [("x", FRows [100; 101; 102; 103]); ("edge_index", FEdges [(0, 1); (1, 2); (2, 3); (3, 0)]); ("edge_weight", FRows [10; 20; 30; 40])],
    [0; 3], [("edge_index", FEdges [(1, 0)]); ("x", FRows [100; 103]); ("edge_weight", FRows [10; 40])], [10; 20; 30; 40], [(1, 0)], [10; 40].
  split; [reflexivity|]. split; [reflexivity|]. split; [reflexivity|]. split; [repeat constructor; cbn; lia|].
  split; [vm_compute; reflexivity|]. split; [reflexivity|]. split; [reflexivity|]. cbn. discriminate.
Qed.

(* ------------------------------------------------------------------ C70 inductive data and evaluation *)
(* for a sampling result that passes validation the method gets exactly the labelled training rows with their
   labels and exactly the unlabelled training rows *)
Theorem C70_method_data {A} (pre : prepared A) r strict n_test tr va te la un :
  aligned (pr_train pre) -> sound_dictionary (lenZ (pt_X (pr_train pre))) n_test r tr va te la un ->
  ref_of (r_refs r) "train_labeled" = "train" -> ref_of (r_refs r) "train_unlabeled" = "train" ->
  exists d, inductive_input pre r strict = Ok d /\ rows_at (pt_X (pr_train pre)) la (id_Xl d) /\
    rows_at (labels_of (pr_train pre)) la (id_yl d) /\ rows_at (pt_X (pr_train pre)) un (id_Xu d).
Proof.
  intros AL SD RL RU. apply inductive_input_total; [exact AL|exact (sd_labeled _ _ _ _ _ _ _ _ SD)|exact (sd_unlabeled _ _ _ _ _ _ _ _ SD)| |].
  - apply Forall_forall. intros i HI. assert (NE : la <> []) by (intros ->; destruct HI).
    pose proof (sd_bounds _ _ _ _ _ _ _ _ SD _ _ (get_In _ _ _ (sd_labeled _ _ _ _ _ _ _ _ SD)) NE) as B. rewrite RL in B. apply B, HI.
  - apply Forall_forall. intros i HI. assert (NE : un <> []) by (intros ->; destruct HI).
    pose proof (sd_bounds _ _ _ _ _ _ _ _ SD _ _ (get_In _ _ _ (sd_unlabeled _ _ _ _ _ _ _ _ SD)) NE) as B. rewrite RU in B. apply B, HI.
Qed.
(* in particular no row of the validation or test set reaches the method *)
Theorem C70_no_held_out_row {A} (pre : prepared A) r strict n_test tr va te la un d :
  aligned (pr_train pre) -> sound_dictionary (lenZ (pt_X (pr_train pre))) n_test r tr va te la un ->
  ref_of (r_refs r) "train_labeled" = "train" -> ref_of (r_refs r) "train_unlabeled" = "train" ->
  inductive_input pre r strict = Ok d ->
  forall x, In x (id_Xl d ++ id_Xu d) -> exists i, In i tr /\ ~ In i va /\ (ref_of (r_refs r) "test" = "train" -> ~ In i te) /\
    nth_error (pt_X (pr_train pre)) (Z.to_nat i) = Some x.
Proof.
  intros AL SD RL RU H x HX. destruct (C70_method_data pre r strict n_test tr va te la un AL SD RL RU) as (d' & E & R1 & _ & R2).
  rewrite H in E. injection E as <-.
  assert (X : forall idx out, rows_at (pt_X (pr_train pre)) idx out -> In x out -> exists i, In i idx /\ nth_error (pt_X (pr_train pre)) (Z.to_nat i) = Some x).
  { clear. intros idx out F HI. induction F as [|i a idx out (_ & E) F IH]; [destruct HI|]. destruct HI as [<-|HI]; [exists i; split; [left; reflexivity|exact E]|].
    destruct (IH HI) as (j & HJ & EJ). exists j. split; [right; exact HJ|exact EJ]. }
  assert (Y : exists i, In i (la ++ un) /\ nth_error (pt_X (pr_train pre)) (Z.to_nat i) = Some x).
  { apply in_app_or in HX as [HX|HX]; [destruct (X _ _ R1 HX) as (i & HI & E)|destruct (X _ _ R2 HX) as (i & HI & E)]; exists i; (split; [|exact E]); apply in_or_app; auto. }
  destruct Y as (i & HI & E). apply (Permutation_in _ (sd_labels_cover _ _ _ _ _ _ _ _ SD)) in HI. exists i. split; [exact HI|].
  split; [intros HV; exact (sd_train_val _ _ _ _ _ _ _ _ SD _ HI HV)|]. split; [|exact E]. intros RT HT. exact (proj1 (sd_test_apart _ _ _ _ _ _ _ _ SD RT i HT) HI).
Qed.
(* the report has exactly the asked-for splits, and each entry is the evaluation of the predictions for the split's
   own rows against those rows' labels *)
Theorem C70_report {A} predict_proba (pre : prepared A) r splits metrics res :
  evaluate_inductive predict_proba pre r splits metrics = Ok res ->
  NoDup (map fst res) /\ (forall s, In s (map fst res) <-> In s splits) /\
  forall s, In s splits -> exists idx p X y scores sc, get (r_indices r) s = Some idx /\ part_of pre r s p /\
    rows_at (pt_X p) idx X /\ rows_at (labels_of p) idx y /\ predict_proba X = Ok scores /\
    evaluate (Labels y) scores metrics = Ok sc /\ get res s = Some sc.
Proof.
  intros H. destruct (evaluate_inductive_from_spec predict_proba pre r metrics splits [] res H (NoDup_nil _)) as (ND & K).
  split; [exact ND|].
  assert (E : forall s, In s splits -> exists idx p X y scores sc, get (r_indices r) s = Some idx /\ part_of pre r s p /\
    rows_at (pt_X p) idx X /\ rows_at (labels_of p) idx y /\ predict_proba X = Ok scores /\
    evaluate (Labels y) scores metrics = Ok sc /\ get res s = Some sc).
  { intros s HS. destruct (proj1 (K s) HS) as (X & y & sco & yp & sc & E1 & E2 & E3 & E4 & E5). apply split_data_spec in E1 as (idx & p & G & P & R1 & R2).
    exists idx, p, X, y, sco, sc. split; [exact G|]. split; [exact P|]. split; [exact R1|]. split; [exact R2|]. split; [exact E2|]. split; [|exact E5].
    unfold evaluate. cbn [labels_1d bind]. rewrite E3. exact E4. }
  split; [|exact E]. intros s. split.
  - intros HI. destruct (in_dec string_dec s splits) as [HS|HS]; [exact HS|]. apply get_keys in HI. rewrite (proj2 (K s) HS) in HI. cbn in HI. congruence.
  - intros HS. destruct (E s HS) as (idx & p & X & y & sco & sc & _ & _ & _ & _ & _ & _ & G). apply get_keys. congruence.
Qed.
(* with a validated sampling result, known metrics and a method that predicts, there is always a report *)
Theorem C70_report_exists {A} predict_proba (pre : prepared A) r splits metrics tr va te la un :
  aligned (pr_train pre) -> match pr_test pre with Some t => aligned t | None => True end ->
  sound_dictionary (lenZ (pt_X (pr_train pre))) (option_map (fun t => lenZ (pt_X t)) (pr_test pre)) r tr va te la un ->
  (ref_of (r_refs r) "test" = "train" \/ pr_test pre <> None) ->
  (forall X, exists scores l, predict_proba X = Ok scores /\ predicted scores l) ->
  (forall n, In n metrics -> In n ["accuracy"; "balanced_accuracy"; "macro_f1"]) -> (forall s, In s splits -> In s ["train"; "val"; "test"]) ->
  exists res, evaluate_inductive predict_proba pre r splits metrics = Ok res.
Proof.
  intros AL AT SD RT PP HM HS. apply evaluate_inductive_from_runs. intros s HI. specialize (HS s HI).
  assert (G : exists idx, get (r_indices r) s = Some idx).
  { destruct HS as [<-|[<-|[<-|[]]]]; eexists; [exact (sd_train _ _ _ _ _ _ _ _ SD)|exact (sd_val _ _ _ _ _ _ _ _ SD)|exact (sd_test _ _ _ _ _ _ _ _ SD)]. }
  destruct G as (idx & G).
  assert (P : exists p, part_of pre r s p /\ aligned p /\ Forall (fun i => 0 <= i < lenZ (pt_X p)) idx).
  { assert (B : idx <> [] -> if String.eqb (ref_of (r_refs r) s) "train" then in_bounds (lenZ (pt_X (pr_train pre))) idx
      else exists nt, option_map (fun t => lenZ (pt_X t)) (pr_test pre) = Some nt /\ in_bounds nt idx) by (intros NE; exact (sd_bounds _ _ _ _ _ _ _ _ SD _ _ (get_In _ _ _ G) NE)).
    unfold part_of. destruct (String.eqb_spec (ref_of (r_refs r) s) "train") as [E|E].
    - exists (pr_train pre). split; [left; auto|]. split; [exact AL|]. destruct idx as [|i0 idx0]; [constructor|]. destruct (B ltac:(discriminate)) as (_ & B').
      apply Forall_forall. exact B'.
    - destruct (pr_test pre) as [t|] eqn:ET.
      + exists t. split; [right; auto|]. split; [exact AT|]. destruct idx as [|i0 idx0]; [constructor|]. destruct (B ltac:(discriminate)) as (nt & EN & _ & B').
        injection EN as <-. apply Forall_forall. exact B'.
      + exfalso. destruct HS as [<-|[<-|[<-|[]]]]; [exact (E (sd_train_ref _ _ _ _ _ _ _ _ SD))|exact (E (sd_val_ref _ _ _ _ _ _ _ _ SD))|]. destruct RT as [RT|RT]; congruence. }
  destruct P as (p & PO & (A1 & A2) & F). destruct (rows_at_exists _ _ F) as (X & RX).
  assert (F' : Forall (fun i => 0 <= i < lenZ (labels_of p)) idx) by (eapply Forall_impl; [|exact F]; unfold lenZ; cbn; intros; rewrite A2; lia).
  destruct (rows_at_exists _ _ F') as (y & RY). destruct (PP X) as (sco & l & E1 & E2). apply labels_1d_spec in E2.
  destruct (compute_metrics_runs y l metrics HM) as (sc & E3).
  exists X, y, sco, l, sc. split; [apply split_data_spec; exists idx, p; auto|]. auto.
Qed.
(* asking for fewer splits does not change the figures of those that remain *)
Theorem C70_splits_independent {A} predict_proba (pre : prepared A) r splits splits' metrics res res' s :
  evaluate_inductive predict_proba pre r splits metrics = Ok res -> evaluate_inductive predict_proba pre r splits' metrics = Ok res' ->
  In s splits -> In s splits' -> get res s = get res' s.
Proof.
  intros H H' HS HS'. destruct (evaluate_inductive_from_spec predict_proba pre r metrics splits [] res H (NoDup_nil _)) as (_ & K).
  destruct (evaluate_inductive_from_spec predict_proba pre r metrics splits' [] res' H' (NoDup_nil _)) as (_ & K').
  destruct (proj1 (K s) HS) as (X & y & p & yp & sc & E1 & E2 & E3 & E4 & E5). destruct (proj1 (K' s) HS') as (X' & y' & p' & yp' & sc' & F1 & F2 & F3 & F4 & F5).
  congruence.
Qed.
(* when classes are numbered 0 .. k-1 in column order the figures are those of the predicted classes *)
Theorem C70_scores_by_class_partial {A} (predict : list A -> list Z) (proba : list A -> list (list Q)) (pre : prepared A) r splits metrics res s :
  (forall X, Forall2 (fun row c => exists j, c = Z.of_nat j /\ first_max row j) (proba X) (predict X)) ->
  evaluate_inductive (fun X => Ok (Scores (proba X))) pre r splits metrics = Ok res -> In s splits ->
  exists idx p X y sc, get (r_indices r) s = Some idx /\ part_of pre r s p /\ rows_at (pt_X p) idx X /\ rows_at (labels_of p) idx y /\
    evaluate (Labels y) (Labels (predict X)) metrics = Ok sc /\ get res s = Some sc.
Proof.
  intros CL H HS. destruct (C70_report _ _ _ _ _ _ H) as (_ & _ & R). destruct (R s HS) as (idx & p & X & y & sco & sc & G & P & R1 & R2 & E & EV & GR).
  exists idx, p, X, y, sc. split; [exact G|]. split; [exact P|]. split; [exact R1|]. split; [exact R2|]. split; [|exact GR].
  injection E as <-. rewrite <- EV. unfold evaluate. cbn [labels_1d bind].
  assert (Q : labels_1d (Scores (proba X)) = Ok (predict X)) by (apply labels_1d_spec; exact (CL X)). cbn [labels_1d] in Q. rewrite Q. reflexivity.
Qed.

Definition demo_sampling : inductive_result :=
  {| r_indices := [("train", [0; 2; 3]); ("val", [1]); ("test", [1; 0]); ("train_labeled", [3]); ("train_unlabeled", [0; 2])];
     r_refs := [("train", "train"); ("val", "train"); ("test", "test"); ("train_labeled", "train"); ("train_unlabeled", "train")] |}.
Definition demo_data : prepared Z :=
  {| pr_train := {| pt_X := [10; 21; 30; 41]; pt_y := [0; 1; 0; 1]; pt_labels := None |};
     pr_test := Some {| pt_X := [50; 61]; pt_y := [0; 1]; pt_labels := None |} |}.
Lemma demo_sampling_sound : sound_dictionary 4 (Some 2) demo_sampling [0; 2; 3] [1] [1; 0] [3] [0; 2].
Proof.
  constructor; try reflexivity; cbn; try (intros; lia).
  - intros name idx HI _. destruct HI as [E|[E|[E|[E|[E|[]]]]]]; injection E as <- <-; cbn.
    all: try (split; [repeat constructor; cbn; lia|cbn; lia]).
    exists 2. split; [reflexivity|]. split; [repeat constructor; cbn; lia|cbn; lia].
  - intros E. discriminate.
  - apply (Permutation_trans (l' := [0; 3; 2])); [apply perm_swap|]. apply perm_skip, perm_swap.
Qed.
Example C70_example :
  aligned (pr_train demo_data) /\ inductive_input demo_data demo_sampling true = Ok {| id_Xl := [41]; id_yl := [1]; id_Xu := [10; 30] |} /\
  match evaluate_inductive (fun X => Ok (Scores (map (fun x => if Z.odd x then [1#4; 3#4]%Q else [3#4; 1#4]%Q) X))) demo_data demo_sampling ["val"; "test"] ["accuracy"] with
  | Ok res => map fst res | Err _ => [] end = ["val"; "test"].
Proof. split; [split; reflexivity|]. split; vm_compute; reflexivity. Qed.

(* finding: predictions are column numbers while labels are compared as they are.  A classifier that always puts the
   largest score on the right class gets accuracy 0 when the data set's labels are 1 and 2 *)
Theorem C70_labels_must_be_column_numbers_refuted : exists (pre : prepared Z) r proba classes res sc,
  (forall X, Forall (fun x => In x classes) X -> Forall2 (fun row x => exists j, first_max row j /\ nth_error classes j = Some x) (proba X) X) /\
  labels_of (pr_train pre) = pt_X (pr_train pre) /\ Forall (fun x => In x classes) (pt_X (pr_train pre)) /\ (* the right class of a row is the row itself *)
  evaluate_inductive (fun X => Ok (Scores (proba X))) pre r ["val"] ["accuracy"] = Ok res /\
  get res "val" = Some sc /\ exists v, In ("accuracy", v) sc /\ same_score v (Some 0%Q).
Proof.
  exists {| pr_train := {| pt_X := [1; 2; 1; 2]; pt_y := [1; 2; 1; 2]; pt_labels := None |}; pr_test := None |},
    {| r_indices := [("train", [0; 1]); ("val", [2; 3]); ("test", []); ("train_labeled", [0]); ("train_unlabeled", [1])]; r_refs := [] |},
    (map (fun x => if x =? 1 then [1; 0]%Q else [0; 1]%Q)), [1; 2], [("val", [("accuracy", Some (0 # 2)%Q)])], [("accuracy", Some (0 # 2)%Q)].
  split.
  - intros X F. induction F as [|x X HX F IH]; constructor; [|exact IH]. destruct HX as [<-|[<-|[]]]; cbn.
    + exists 0%nat. split; [|reflexivity]. apply argmax_first. reflexivity.
    + exists 1%nat. split; [|reflexivity]. apply argmax_first. reflexivity.
  - split; [reflexivity|]. split; [repeat constructor; cbn; tauto|]. split; [vm_compute; reflexivity|]. split; [reflexivity|].
    exists (Some (0 # 2)%Q). split; [left; reflexivity|]. cbn. reflexivity.
Qed.

(* ------------------------------------------------------------------ C71 transductive data and evaluation *)
(* test rows are numbered after the training rows, in features, labels and graph alike *)
Theorem C71_numbering {A} (pre : prepared A) m expected d :
  transductive_input pre true m expected = Ok d -> length (pt_X (pr_train pre)) = length (pt_y (pr_train pre)) ->
  (forall i, 0 <= i < lenZ (pt_X (pr_train pre)) ->
     nth_error (nd_X d) (Z.to_nat i) = nth_error (pt_X (pr_train pre)) (Z.to_nat i) /\
     nth_error (nd_true d) (Z.to_nat i) = nth_error (pt_y (pr_train pre)) (Z.to_nat i)) /\
  (forall t j, pr_test pre = Some t -> 0 <= j ->
     nth_error (nd_X d) (Z.to_nat (lenZ (pt_X (pr_train pre)) + j)) = nth_error (pt_X t) (Z.to_nat j) /\
     nth_error (nd_true d) (Z.to_nat (lenZ (pt_X (pr_train pre)) + j)) = nth_error (pt_y t) (Z.to_nat j)).
Proof.
  intros H L. unfold transductive_input in H. destruct (match expected with Some e => negb (count_true (m_labeled m) =? e) | None => false end); [discriminate|].
  injection H as <-. cbn [nd_X nd_true]. unfold lenZ. split.
  - intros i Hi. destruct (pr_test pre) as [t|]; cbn [option_map combine_splits]; [|auto]. rewrite !nth_error_app1 by lia. auto.
  - intros t j -> Hj. cbn [option_map combine_splits].
    replace (Z.to_nat (Z.of_nat (length (pt_X (pr_train pre))) + j)) with (length (pt_X (pr_train pre)) + Z.to_nat j)%nat by lia.
    rewrite !nth_error_app2 by lia. rewrite <- L. replace (length (pt_X (pr_train pre)) + Z.to_nat j - length (pt_X (pr_train pre)))%nat with (Z.to_nat j) by lia. auto.
Qed.
(* for a validated sampling result the masks exist, are pairwise consistent, and mark exactly the rows of each set *)
Theorem C71_masks n_train n_test r tr va te la un : 0 <= n_train -> match n_test with Some t => 0 <= t | None => True end ->
  sound_dictionary n_train n_test r tr va te la un ->
  ref_of (r_refs r) "train_labeled" = "train" -> ref_of (r_refs r) "train_unlabeled" = "train" ->
  (ref_of (r_refs r) "test" = "train" \/ ref_of (r_refs r) "test" = "test") ->
  let test := if use_test_split (SIndices r) then n_test else None in
  exists m, mask_map (SIndices r) n_train test = Ok m /\
    sound_masks (n_train + match test with Some t => t | None => 0 end) m /\
    forall k mask idx, In (k, mask) [("train", m_train m); ("val", m_val m); ("test", m_test m); ("train_labeled", m_labeled m); ("train_unlabeled", m_unlabeled m)] ->
      get (r_indices r) k = Some idx -> forall j, 0 <= j -> (on mask j <-> exists i, In i idx /\ j = node_of n_train r k i).
Proof.
  intros NT NS SD RL RU RT test. destruct (build_masks_spec n_train n_test r tr va te la un NT NS SD RL RU RT) as (m & E & S & O).
  exists m. split; [exact E|]. split; [exact S|exact O].
Qed.
(* a labelled node keeps its label, an unlabelled training node shows -1 *)
Theorem C71_training_labels_partial {A} (pre : prepared A) use_test m expected d n i v : sound_masks n m ->
  transductive_input pre use_test m expected = Ok d -> lenZ (nd_true d) = n ->
  0 <= i -> nth_error (nd_true d) (Z.to_nat i) = Some v -> on (m_train m) i ->
  nth_error (nd_y d) (Z.to_nat i) = Some (if nth (Z.to_nat i) (m_labeled m) false then v else -1).
Proof.
  intros S H L Hi E T. unfold transductive_input in H. destruct (match expected with Some e => negb (count_true (m_labeled m) =? e) | None => false end); [discriminate|].
  injection H as <-. cbn [nd_y nd_true] in *. match type of E with nth_error ?y _ = _ => set (y0 := y) in * end. clearbody y0.
  assert (L4 : lenZ (m_labeled m) = n) by (apply (sm_lengths _ _ S); cbn; auto). assert (L5 : lenZ (m_unlabeled m) = n) by (apply (sm_lengths _ _ S); cbn; auto 6).
  unfold observed_labels, lenZ in *. destruct (Nat.eqb_spec (length y0) (length (m_labeled m))) as [_|N]; [|lia].
  destruct (Nat.eqb_spec (length (m_unlabeled m)) (length y0)) as [N|N]; [|lia]. rewrite hide_spec by exact N. rewrite E. f_equal.
  pose proof (sm_unlabeled _ _ S i) as U. unfold on in U, T. destruct (nth (Z.to_nat i) (m_unlabeled m) false), (nth (Z.to_nat i) (m_labeled m) false); try reflexivity.
  - exfalso. apply (proj2 (proj1 U eq_refl)). reflexivity.
  - exfalso. assert (X : false = true) by (apply U; split; [exact T|discriminate]). discriminate.
Qed.
(* features, labels and masks have one entry per node *)
Theorem C71_one_entry_per_node {A} (pre : prepared A) use_test m expected d n : sound_masks n m -> transductive_input pre use_test m expected = Ok d -> lenZ (nd_true d) = n ->
  lenZ (nd_y d) = n /\ lenZ (nd_train_mask d) = n /\ nd_train_mask d = m_labeled m.
Proof.
  intros S H L. unfold transductive_input in H. destruct (match expected with Some e => negb (count_true (m_labeled m) =? e) | None => false end); [discriminate|].
  injection H as <-. cbn [nd_y nd_true nd_train_mask] in *. match type of L with lenZ ?y = _ => set (y0 := y) in * end. clearbody y0.
  assert (L4 : lenZ (m_labeled m) = n) by (apply (sm_lengths _ _ S); cbn; auto). split; [|auto].
  unfold observed_labels, hide, lenZ in *. destruct (Nat.eqb (length y0) (length (m_labeled m))); [|exact L].
  destruct (Nat.eqb_spec (length (m_unlabeled m)) (length y0)); rewrite map_length, combine_length; [lia|rewrite map_length; lia].
Qed.
(* a labelled count that differs from the one promised by sampling is refused *)
Theorem C71_labelled_count_checked {A} (pre : prepared A) use_test m e d : transductive_input pre use_test m (Some e) = Ok d ->
  lenZ (where_true (m_labeled m)) = e.
Proof.
  intros H. unfold transductive_input in H. destruct (Z.eqb_spec (count_true (m_labeled m)) e) as [E|]; [|discriminate]. rewrite <- E. unfold count_true.
  apply where_true_count.
Qed.
(* the report has exactly the asked-for splits, and each entry is the evaluation over exactly the marked nodes *)
Theorem C71_report y predictions m splits metrics res : evaluate_transductive y predictions m splits metrics = Ok res ->
  NoDup (map fst res) /\ (forall s, In s (map fst res) <-> In s splits) /\
  exists yp, predicted predictions yp /\ forall s mask, In s splits ->
    In (s, mask) [("train", m_train m); ("val", m_val m); ("test", m_test m); ("unlabeled", m_unlabeled m); ("labeled", m_labeled m)] ->
    exists pos t p sc, marked_positions mask pos /\ entries_at y pos t /\ entries_at yp pos p /\
      evaluate (Labels t) (Labels p) metrics = Ok sc /\ get res s = Some sc.
Proof.
  intros H. unfold evaluate_transductive in H. apply bind_ok in H as (yp & EP & H).
  destruct (evaluate_transductive_from_spec y yp m metrics splits [] res H (NoDup_nil _)) as (ND & K). split; [exact ND|]. split.
  - intros s. split.
    + intros HI. destruct (in_dec string_dec s splits) as [HS|HS]; [exact HS|]. apply get_keys in HI. rewrite (proj2 (K s) HS) in HI. cbn in HI. congruence.
    + intros HS. destruct (proj1 (K s) HS) as (mask & sc & _ & _ & _ & _ & G). apply get_keys. congruence.
  - exists yp. split; [apply labels_1d_spec, EP|]. intros s mask HS HM. destruct (proj1 (K s) HS) as (mask' & sc & EM & L1 & L2 & E & G).
    assert (mask' = mask).
    { cbn [In] in HM. destruct HM as [X|[X|[X|[X|[X|[]]]]]]; injection X as <- <-; cbn in EM; congruence. }
    subst mask'. exists (positions_from 0 mask), (keep y mask), (keep yp mask), sc. split; [apply positions_marked|].
    split; [apply keep_entries, L1|]. split; [apply keep_entries, L2|]. split; [exact E|exact G].
Qed.
(* end to end: the figures of a split are those of the nodes that stand for the split's rows *)
Theorem C71_report_of_the_rows n_train n_test r tr va te la un y predictions m splits metrics res s idx :
  0 <= n_train -> match n_test with Some t => 0 <= t | None => True end -> sound_dictionary n_train n_test r tr va te la un ->
  ref_of (r_refs r) "train_labeled" = "train" -> ref_of (r_refs r) "train_unlabeled" = "train" ->
  (ref_of (r_refs r) "test" = "train" \/ ref_of (r_refs r) "test" = "test") ->
  mask_map (SIndices r) n_train (if use_test_split (SIndices r) then n_test else None) = Ok m ->
  evaluate_transductive y predictions m splits metrics = Ok res ->
  In s splits -> In s ["train"; "val"; "test"] -> get (r_indices r) s = Some idx ->
  exists yp pos t p sc, predicted predictions yp /\ NoDup pos /\
    (forall j, In j pos <-> exists i, In i idx /\ Z.of_nat j = node_of n_train r s i) /\
    entries_at y pos t /\ entries_at yp pos p /\ evaluate (Labels t) (Labels p) metrics = Ok sc /\ get res s = Some sc.
Proof.
  intros NT NS SD RL RU RT EM H HS HN G. destruct (C71_masks n_train n_test r tr va te la un NT NS SD RL RU RT) as (m' & EM' & _ & O).
  cbv zeta in EM'. rewrite EM in EM'. injection EM' as <-.
  destruct (C71_report _ _ _ _ _ _ H) as (_ & _ & yp & PR & R).
  assert (X : exists mask, In (s, mask) [("train", m_train m); ("val", m_val m); ("test", m_test m); ("unlabeled", m_unlabeled m); ("labeled", m_labeled m)] /\
     In (s, mask) [("train", m_train m); ("val", m_val m); ("test", m_test m); ("train_labeled", m_labeled m); ("train_unlabeled", m_unlabeled m)]).
  { destruct HN as [<-|[<-|[<-|[]]]]; [exists (m_train m)|exists (m_val m)|exists (m_test m)]; cbn; tauto. }
  destruct X as (mask & M1 & M2). destruct (R s mask HS M1) as (pos & t & p & sc & (MP & SO) & T & P & E & GR).
  exists yp, pos, t, p, sc. split; [exact PR|]. split.
  - apply NoDup_nth_error. intros a b La E'. destruct (Nat.lt_trichotomy a b) as [L|[L|L]]; [|exact L|].
    + destruct (nth_error pos a) as [i|] eqn:N; [|apply nth_error_None in N; lia]. specialize (SO a b i i L N (eq_sym E')). lia.
    + destruct (nth_error pos a) as [i|] eqn:N; [|apply nth_error_None in N; lia]. specialize (SO b a i i L (eq_sym E') N). lia.
  - split; [|auto]. intros j. rewrite MP. rewrite <- (O s mask idx M2 G (Z.of_nat j) ltac:(lia)). rewrite (on_nth_error mask (Z.of_nat j) ltac:(lia)).
    rewrite Nat2Z.id. reflexivity.
Qed.
Example C71_example :
  mask_map (SIndices demo_sampling) 4 (Some 2) =
    Ok {| m_train := [true; false; true; true; false; false]; m_val := [false; true; false; false; false; false];
          m_test := [false; false; false; false; true; true]; m_labeled := [false; false; false; true; false; false];
          m_unlabeled := [true; false; true; false; false; false] |} /\
  match mask_map (SIndices demo_sampling) 4 (Some 2) with
  | Ok m => match transductive_input demo_data true m (Some 1) with Ok d => (nd_X d, nd_y d, nd_true d) | Err _ => ([], [], []) end
  | Err _ => ([], [], []) end = ([10; 21; 30; 41; 50; 61], [-1; 1; -1; 1; 0; 1], [0; 1; 0; 1; 0; 1]).
Proof. split; vm_compute; reflexivity. Qed.

(* finding: only the unlabelled training nodes are hidden, so the labels of validation and test nodes are visible in
   the labels handed to the method *)
Theorem C71_held_out_labels_visible_refuted : exists (pre : prepared Z) m d i v, sound_masks 6 m /\
  transductive_input pre true m None = Ok d /\ on (m_test m) i /\ nth_error (nd_true d) (Z.to_nat i) = Some v /\
  v <> -1 /\ nth_error (nd_y d) (Z.to_nat i) = Some v.
Proof.
  destruct (C71_masks 4 (Some 2) demo_sampling _ _ _ _ _ ltac:(lia) ltac:(cbn; lia) demo_sampling_sound eq_refl eq_refl (or_intror eq_refl)) as (m & E & S & _).
  vm_compute in E. injection E as <-. exists demo_data. eexists. eexists. exists 5, 1. split; [exact S|]. split; [cbn; reflexivity|].
  split; [reflexivity|]. split; [reflexivity|]. split; [discriminate|reflexivity].
Qed.
(* they would be hidden by hiding everything that is not labelled; the methods that read only labelled positions
   (C37) are not affected *)

(* ------------------------------------------------------------------ C72 rows for fitting the preprocessing *)
(* the rows are those of the set that was asked for, and never those of the test set *)
Theorem C72_fit_rows s f l : resolve_fit_indices s (Some f) = Ok (Some l) ->
  In f ["train"; "train_labeled"; "train_unlabeled"; "val"] /\
  match s with
  | SIndices r => get (r_indices r) f = Some l
  | SMasks m => exists mask, In (f, mask) [("train", m_train m); ("train_labeled", m_labeled m); ("train_unlabeled", m_unlabeled m); ("val", m_val m)] /\
      (forall i, In i l <-> 0 <= i < lenZ mask /\ on mask i)
  end.
Proof.
  unfold resolve_fit_indices. destruct s as [r|m].
  - destruct (String.eqb_spec f "train") as [->|N1]; [|destruct (String.eqb_spec f "train_labeled") as [->|N2]; [|destruct (String.eqb_spec f "train_unlabeled") as [->|N3]; [|destruct (String.eqb_spec f "val") as [->|N4]; [|discriminate]]]];
      cbn [orb]; intros H; apply bind_ok in H as (l' & E & H); injection H as <-; (split; [cbn; tauto|]); apply index_of_ok; exact E.
  - destruct (String.eqb_spec f "train") as [->|N1]; [|destruct (String.eqb_spec f "train_labeled") as [->|N2]; [|destruct (String.eqb_spec f "train_unlabeled") as [->|N3]; [|destruct (String.eqb_spec f "val") as [->|N4]; [|discriminate]]]];
      intros [= <-]; (split; [cbn; tauto|]).
    + exists (m_train m). split; [cbn; tauto|]. intros i; apply where_true_iff.
    + exists (m_labeled m). split; [cbn; tauto|]. intros i; apply where_true_iff.
    + exists (m_unlabeled m). split; [cbn; tauto|]. intros i; apply where_true_iff.
    + exists (m_val m). split; [cbn; tauto|]. intros i; apply where_true_iff.
Qed.
Theorem C72_never_the_test_set s f l n_train n_test : resolve_fit_indices s (Some f) = Ok (Some l) ->
  match s with
  | SIndices r => forall tr va te la un, sound_dictionary n_train n_test r tr va te la un -> ref_of (r_refs r) "test" = "train" -> forall i, In i l -> ~ In i te
  | SMasks m => sound_masks n_train m -> forall i, In i l -> ~ on (m_test m) i
  end.
Proof.
  intros H. apply C72_fit_rows in H as (F & R). destruct s as [r|m].
  - intros tr va te la un SD RT i HI HT. destruct (sd_test_apart _ _ _ _ _ _ _ _ SD RT i HT) as (N1 & N2).
    pose proof (sd_labels_cover _ _ _ _ _ _ _ _ SD) as P. destruct F as [<-|[<-|[<-|[<-|[]]]]].
    + rewrite (sd_train _ _ _ _ _ _ _ _ SD) in R. congruence.
    + rewrite (sd_labeled _ _ _ _ _ _ _ _ SD) in R. injection R as ->. apply N1, (Permutation_in _ P), in_or_app. auto.
    + rewrite (sd_unlabeled _ _ _ _ _ _ _ _ SD) in R. injection R as ->. apply N1, (Permutation_in _ P), in_or_app. auto.
    + rewrite (sd_val _ _ _ _ _ _ _ _ SD) in R. congruence.
  - intros S i HI HT. destruct R as (mask & HM & IFF). apply IFF in HI as (_ & O). destruct (sm_disjoint _ _ S i) as (_ & D2 & D3).
    cbn [In] in HM. destruct HM as [E|[E|[E|[E|[]]]]]; injection E as <- <-; [tauto| | |tauto].
    + apply (sm_labeled _ _ S) in O. tauto.
    + apply (sm_unlabeled _ _ S) in O. tauto.
Qed.
Theorem C72_test_refused s f : ~ In f ["train"; "train_labeled"; "train_unlabeled"; "val"] -> resolve_fit_indices s (Some f) = Err ValueError.
Proof.
  intros N. cbn in N. unfold resolve_fit_indices.
  rewrite (proj2 (String.eqb_neq f "train")), (proj2 (String.eqb_neq f "train_labeled")), (proj2 (String.eqb_neq f "train_unlabeled")), (proj2 (String.eqb_neq f "val")) by (intros ->; tauto).
  destruct s; reflexivity.
Qed.
(* graph sampling turned into index sets passes the validation of inductive sampling and names the same rows *)
Theorem C72_conversion_is_sound n m : validate_graph n m = Ok tt ->
  validate_inductive n None (graph_sampling_to_inductive m) = Ok tt /\
  forall k mask, In (k, mask) [("train", m_train m); ("val", m_val m); ("test", m_test m); ("train_labeled", m_labeled m); ("train_unlabeled", m_unlabeled m)] ->
    exists idx, get (r_indices (graph_sampling_to_inductive m)) k = Some idx /\ ref_of (r_refs (graph_sampling_to_inductive m)) k = "train" /\
      forall i, In i idx <-> 0 <= i < lenZ mask /\ on mask i.
Proof.
  intros V. apply validate_graph_spec in V. split.
  - apply validate_inductive_spec. do 5 eexists. apply conversion_sound. exact V.
  - intros k mask HI. cbn [In] in HI. destruct HI as [E|[E|[E|[E|[E|[]]]]]]; injection E as <- <-; (eexists; split; [reflexivity|]; split; [reflexivity|]; intros i; apply where_true_iff).
Qed.
Example C72_example : match mask_map (SIndices demo_sampling) 4 (Some 2) with
  | Ok m => (validate_graph 6 m, resolve_fit_indices (SMasks m) (Some "train_unlabeled"), resolve_fit_indices (SMasks m) (Some "test"))
  | Err e => (Err e, Err e, Err e) end = (Ok tt, Ok (Some [0; 2]), Err ValueError).
Proof. vm_compute. reflexivity. Qed.

Print Assumptions C69_selects_exactly.
Print Assumptions C69_success_iff_in_range.
Print Assumptions C69_negative_refused.
Print Assumptions C69_too_large_refused.
Print Assumptions C69_graph_rows.
Print Assumptions C69_graph_other.
Print Assumptions C69_graph_edges_follow_rows.
Print Assumptions C69_graph_edge_count.
Print Assumptions C69_edge_weight_refuted.
Print Assumptions C70_method_data.
Print Assumptions C70_no_held_out_row.
Print Assumptions C70_report.
Print Assumptions C70_report_exists.
Print Assumptions C70_splits_independent.
Print Assumptions C70_scores_by_class_partial.
Print Assumptions C70_labels_must_be_column_numbers_refuted.
Print Assumptions C71_numbering.
Print Assumptions C71_masks.
Print Assumptions C71_training_labels_partial.
Print Assumptions C71_one_entry_per_node.
Print Assumptions C71_labelled_count_checked.
Print Assumptions C71_report.
Print Assumptions C71_report_of_the_rows.
Print Assumptions C71_held_out_labels_visible_refuted.
Print Assumptions C72_fit_rows.
Print Assumptions C72_never_the_test_set.
Print Assumptions C72_test_refused.
Print Assumptions C72_conversion_is_sound.
