(* C19-C22, C48: edge-list operations, masks and the graph post-processing pipeline. *)
From Coq Require Import QArith Qminmax.
From Verif Require Import Prelude GraphOpsModel GraphOpsSpec GraphOpsProofs.
Local Open Scope Z_scope.
Local Open Scope list_scope.

(* ------------------------------------------------------------------------------------ C19 *)
(* For any weight type, maximum and average: the result lists every pair exactly once, with exactly
   the weight the specification gives; undirected_weight says when there is an edge at all. *)
Theorem C19_symmetrize_exact : forall (W : Type) (maxW avgW : W -> W -> W) n mode (l : list (edge * W)),
  nodes_in n l -> mode <> SymNone ->
  NoDup (map fst (symmetrize maxW avgW n mode l)) /\
  forall i j w, In ((i, j), w) (symmetrize maxW avgW n mode l) <->
    undirected_weight maxW avgW (match mode with SymMutual => true | _ => false end) l i j = Some w.
Proof. exact (fun W mx av n m l H1 H2 => symmetrize_spec mx av n m l H1 H2). Qed.

(* the edge set alone *)
Theorem C19_symmetrize_edges : forall (W : Type) (maxW avgW : W -> W -> W) n (l : list (edge * W)) i j,
  nodes_in n l ->
  (In (i, j) (map fst (symmetrize maxW avgW n SymOr l)) <->
     In (i, j) (map fst l) \/ In (j, i) (map fst l)) /\
  (In (i, j) (map fst (symmetrize maxW avgW n SymMutual l)) <->
     In (i, j) (map fst l) /\ In (j, i) (map fst l)).
Proof.
  intros W mx av n l i j Hn.
  assert (H : forall m, m <> SymNone -> (In (i, j) (map fst (symmetrize mx av n m l)) <->
             exists w, undirected_weight mx av (is_mutual m) l i j = Some w)).
  { intros m Hm. rewrite in_map_iff. split.
    - intros [[e w] [E H]]. cbn in E; subst e. apply (proj2 (symmetrize_spec mx av n m l Hn Hm)) in H. eauto.
    - intros [w H]. exists ((i, j), w). split; [reflexivity|]. apply (proj2 (symmetrize_spec mx av n m l Hn Hm)), H. }
  rewrite (H SymOr or_not_none), (H SymMutual mutual_not_none). split.
  - exact (undirected_some mx av false l i j).
  - exact (undirected_some mx av true l i j).
Qed.

(* both directions carry the same weight *)
Theorem C19_symmetrize_symmetric : forall (W : Type) (maxW avgW : W -> W -> W) n mode (l : list (edge * W)) i j w,
  nodes_in n l -> mode <> SymNone ->
  In ((i, j), w) (symmetrize maxW avgW n mode l) -> In ((j, i), w) (symmetrize maxW avgW n mode l).
Proof.
  intros W mx av n m l i j w Hn Hm H. pose proof (proj2 (symmetrize_spec mx av n m l Hn Hm)) as E.
  apply E. apply E in H. rewrite undirected_comm. exact H.
Qed.

(* symmetrising twice, even in the other mode, gives the same weighted edges *)
Theorem C19_symmetrize_idempotent : forall (W : Type) (maxW avgW : W -> W -> W) n mode mode' (l : list (edge * W)),
  nodes_in n l -> mode <> SymNone -> mode' <> SymNone -> (forall x, avgW x x = x) ->
  forall i j w, In ((i, j), w) (symmetrize maxW avgW n mode' (symmetrize maxW avgW n mode l)) <->
                In ((i, j), w) (symmetrize maxW avgW n mode l).
Proof. intros W mx av n m m' l H1 H2 H3 H4. exact (symmetrize_idem mx av n m m' l H1 H2 H3 H4). Qed.

Theorem C19_none_unchanged : forall (W : Type) (maxW avgW : W -> W -> W) n (l : list (edge * W)),
  symmetrize maxW avgW n SymNone l = l.
Proof. reflexivity. Qed.

(* without the range hypothesis the claim fails: node ids that do not exist are silently moved onto the
   last node, and duplicates and edges absent from the input appear *)
Theorem C19_out_of_range_refuted : exists n (l : list (edge * Z)),
  ~ NoDup (map fst (symmetrize Z.max (fun x y => (x + y) / 2) n SymOr l)) /\
  In (0, 2) (map fst (symmetrize Z.max (fun x y => (x + y) / 2) n SymOr l)) /\
  ~ In (0, 2) (map fst l) /\ ~ In (2, 0) (map fst l).
Proof.
  exists 3, [((0, 7), 1); ((0, 8), 1)]. vm_compute. split; [|intuition congruence].
  intros H. inversion H as [|? ? Hn _]; subst. apply Hn. left. reflexivity.
Qed.

Example C19_example :
  let l := [((1, 0), 4); ((0, 1), 2); ((0, 1), 6); ((2, 2), 5); ((2, 0), 3)] in
  let avg := fun x y => (x + y) / 2 in
  nodes_in 3 l /\
  symmetrize Z.max avg 3 SymOr l = [((0, 1), 5); ((0, 2), 3); ((1, 0), 5); ((2, 0), 3); ((2, 2), 5)] /\
  symmetrize Z.max avg 3 SymMutual l = [((0, 1), 5); ((1, 0), 5); ((2, 2), 5)].
Proof.
  split; [|split; vm_compute; reflexivity].
  intros i j w H. repeat (destruct H as [H|H]; [inversion H; subst; lia|]). destruct H.
Qed.

(* ------------------------------------------------------------------------------------ C20 *)
Theorem C20_add_self_loops : forall (W : Type) n (weight : W) edges w,
  (forall i, In (i, i) edges -> 0 <= i < n) ->
  exists missing,
    StronglySorted Z.lt missing /\
    (forall i, In i missing <-> 0 <= i < n /\ ~ In (i, i) edges) /\
    add_self_loops n weight edges w =
      Ok (edges ++ map (fun i => (i, i)) missing,
          match w with None => None | Some ws => Some (ws ++ repeat weight (length missing)) end).
Proof.
  intros W n weight edges w H. exists (missing_loops n edges).
  split; [apply missing_sorted|]. split; [apply in_missing|].
  rewrite (add_self_loops_eq n weight edges w H). destruct w as [ws|]; [|reflexivity].
  do 4 f_equal. induction (missing_loops n edges) as [|a r IH]; cbn; [reflexivity|]. f_equal. exact IH.
Qed.

(* after the call every node has a self-loop, and calling it again changes nothing *)
Theorem C20_idempotent : forall (W : Type) n (weight weight' : W) edges w edges' w',
  (forall i, In (i, i) edges -> 0 <= i < n) ->
  add_self_loops n weight edges w = Ok (edges', w') ->
  (forall i, 0 <= i < n -> In (i, i) edges') /\
  add_self_loops n weight' edges' w' = Ok (edges', w').
Proof.
  intros W n weight weight' edges w edges' w' H E.
  rewrite (add_self_loops_eq n weight edges w H) in E. injection E as E1 E2.
  assert (Hall : forall i, 0 <= i < n -> In (i, i) edges').
  { intros i Hi. rewrite <- E1. apply in_or_app.
    destruct (memZ i (missing_loops n edges)) eqn:Em.
    - right. apply in_map_iff. exists i. split; [reflexivity|]. apply ListFacts.memZ_In, Em.
    - left. apply ListFacts.memZ_false in Em. rewrite in_missing in Em.
      destruct (memZ i (map fst (filter (fun e : edge => fst e =? snd e) edges))) eqn:Ei.
      + apply in_loop_nodes, ListFacts.memZ_In, Ei.
      + exfalso. apply Em. split; [exact Hi|]. apply ListFacts.memZ_false in Ei. rewrite in_loop_nodes in Ei. exact Ei. }
  split; [exact Hall|].
  assert (H' : forall i, In (i, i) edges' -> 0 <= i < n).
  { intros i Hi. rewrite <- E1 in Hi. apply in_app_or in Hi. destruct Hi as [Hi|Hi]; [apply H, Hi|].
    apply in_map_iff in Hi. destruct Hi as [k [Ek Hk]]. inversion Ek; subst. apply in_missing in Hk. tauto. }
  rewrite (add_self_loops_eq n weight' edges' w' H').
  assert (Em : missing_loops n edges' = []).
  { destruct (missing_loops n edges') as [|a r] eqn:Er; [reflexivity|]. exfalso.
    assert (Ha : In a (missing_loops n edges')) by (rewrite Er; left; reflexivity).
    apply in_missing in Ha. destruct Ha as [Ha Hn]. apply Hn, Hall, Ha. }
  rewrite Em. cbn. rewrite app_nil_r. destruct w'; [rewrite app_nil_r|]; reflexivity.
Qed.

Example C20_example :
  add_self_loops 4 7 [(0, 0); (1, 2); (3, 3)] (Some [1; 2; 3])
  = Ok ([(0, 0); (1, 2); (3, 3); (1, 1); (2, 2)], Some [1; 2; 3; 7; 7]).
Proof. reflexivity. Qed.

(* ------------------------------------------------------------------------------------ C21 *)
Local Open Scope Q_scope.
(* rw: the outgoing weights of a node are divided by their total; they add up to one whenever the total
   reaches eps, and to total/eps below it *)
Theorem C21_rw_row_sums : forall inv_sqrt edges ws out eps i,
  normalize inv_sqrt edges (Some ws) NormRw eps = Some out -> 0 < eps ->
  (eps <= sumQ (outgoing edges ws i) -> sumQ (outgoing edges out i) == 1) /\
  (sumQ (outgoing edges ws i) < eps -> sumQ (outgoing edges out i) == sumQ (outgoing edges ws i) / eps).
Proof.
  intros f edges ws out eps i H He. split.
  - intros Hd. exact (rw_stochastic f edges ws out eps i H He Hd).
  - intros Hd. rewrite (rw_row_sum _ _ _ _ _ _ H). rewrite Q.max_r by (apply Qlt_le_weak, Hd).
    unfold Qdiv. rewrite Qmult_1_l. reflexivity.
Qed.

(* each single weight: w / max(total, eps) *)
Theorem C21_rw_pointwise : forall inv_sqrt edges ws out eps k i j w,
  normalize inv_sqrt edges (Some ws) NormRw eps = Some out -> length ws = length edges -> 0 < eps ->
  nth_error edges k = Some (i, j) -> nth_error ws k = Some w ->
  exists v, nth_error out k = Some v /\ v == w / Qmax (sumQ (outgoing edges ws i)) eps.
Proof.
  intros f edges ws out eps k i j w H Hl He Hk Hw. injection H as <-.
  assert (Hc : nth_error (combine edges ws) k = Some ((i, j), w)).
  { clear -Hl Hk Hw. revert ws k Hl Hk Hw. induction edges as [|e r IH]; intros [|x ws] [|k] Hl Hk Hw; cbn in *;
      try discriminate.
    - injection Hk as ->; injection Hw as ->; reflexivity.
    - apply IH; auto. }
  eexists. split; [apply map_nth_error; exact Hc|]. cbn [fst snd].
  rewrite (degree_outgoing edges ws i). unfold Qdiv. rewrite Qmult_1_l. reflexivity.
Qed.

(* sym: a pair of edges in opposite directions with equal weights keeps equal weights *)
Theorem C21_sym_keeps_symmetry : forall inv_sqrt edges ws out eps k k' i j w,
  normalize inv_sqrt edges (Some ws) NormSym eps = Some out -> length ws = length edges ->
  nth_error edges k = Some (i, j) -> nth_error ws k = Some w ->
  nth_error edges k' = Some (j, i) -> nth_error ws k' = Some w ->
  exists v v', nth_error out k = Some v /\ nth_error out k' = Some v' /\ v == v'.
Proof.
  intros f edges ws out eps k k' i j w H Hl Hk Hw Hk' Hw'. injection H as <-.
  assert (Hc : forall k i j w, nth_error edges k = Some (i, j) -> nth_error ws k = Some w ->
             nth_error (combine edges ws) k = Some ((i, j), w)).
  { clear. revert ws. induction edges as [|e r IH]; intros [|x ws] [|k] i j w Hk Hw; cbn in *; try discriminate.
    - injection Hk as ->; injection Hw as ->; reflexivity.
    - apply IH; auto. }
  do 2 eexists. split; [apply map_nth_error; exact (Hc k i j w Hk Hw)|].
  split; [apply map_nth_error; exact (Hc k' j i w Hk' Hw')|]. cbn [fst snd]. ring.
Qed.

Theorem C21_none_unchanged : forall inv_sqrt edges w eps,
  normalize inv_sqrt edges w NormNone eps = w /\
  (forall mode, normalize inv_sqrt edges None mode eps = None).
Proof. intros. split; [reflexivity|intros []; reflexivity]. Qed.

Example C21_example :
  exists out, normalize (fun x => x) [(0, 1); (0, 2); (1, 0)]%Z (Some [1; 3; 5]) NormRw (1 # 1000) = Some out
    /\ Forall2 Qeq out [1 # 4; 3 # 4; 1].
Proof. eexists. split; [reflexivity|]. repeat constructor; reflexivity. Qed.

(* ------------------------------------------------------------------------------------ C22 *)
Local Open Scope Z_scope.
Theorem C22_masks_exact : forall n tr va te lab m,
  masks_from_indices n tr va te lab = Ok m ->
  (forall i, marked (nm_train m) i <-> In i tr) /\
  (forall i, marked (nm_val m) i <-> In i va) /\
  (forall i, marked (nm_test m) i <-> In i te) /\
  (forall i, marked (nm_unlabeled m) i <->
     0 <= i < n /\ match lab with None => ~ In i tr | Some l => In i tr /\ ~ In i l end) /\
  Forall (fun k => length k = Z.to_nat n) [nm_train m; nm_val m; nm_test m; nm_unlabeled m].
Proof. intros n tr va te lab m H. apply masks_spec in H. tauto. Qed.

Theorem C22_masks_accept_iff_in_range : forall n tr va te lab,
  (exists m, masks_from_indices n tr va te lab = Ok m) <->
  (0 < n /\ all_below n tr /\ all_below n va /\ all_below n te /\
   forall l, lab = Some l -> all_below n l).
Proof.
  intros. split.
  - intros [m H]. apply masks_spec in H. tauto.
  - intros (H1 & H2 & H3 & H4 & H5). apply masks_total; assumption.
Qed.

Theorem C22_masks_error_kind : forall n tr va te lab e,
  masks_from_indices n tr va te lab = Err e -> e = GraphValidationError.
Proof. intros. eapply masks_error; eassumption. Qed.

(* overlapping splits and labelled nodes outside train are accepted *)
Theorem C22_overlap_refuted : exists n tr va te l m,
  masks_from_indices n tr va te (Some l) = Ok m /\
  (exists i, marked (nm_train m) i /\ marked (nm_test m) i) /\
  (exists i, In i l /\ ~ In i tr).
Proof.
  exists 3, [0; 1], [], [1], [2]. eexists. split; [vm_compute; reflexivity|]. split.
  - exists 1. split; (split; [lia|reflexivity]).
  - exists 2. cbn. split; [auto|intuition lia].
Qed.

(* with no labelled list, every validation and test node outside train counts as unlabelled *)
Theorem C22_unlabeled_without_list : forall n tr va te m i,
  masks_from_indices n tr va te None = Ok m ->
  In i va \/ In i te -> ~ In i tr -> marked (nm_unlabeled m) i.
Proof.
  intros n tr va te m i H Hi Hn. apply masks_spec in H.
  destruct H as (_ & _ & Hva & Hte & _ & _ & _ & _ & Hu & _). apply Hu.
  split; [destruct Hi as [Hi|Hi]; [apply Hva, Hi|apply Hte, Hi]|exact Hn].
Qed.

Example C22_example : exists m,
  masks_from_indices 5 [0; 2; 3] [1] [4] (Some [2]) = Ok m /\
  nm_unlabeled m = [true; false; false; true; false].
Proof. eexists. split; reflexivity. Qed.

(* ------------------------------------------------------------------------------------ C48 *)
Local Open Scope Q_scope.
(* build_graph with self-loops and rw normalisation: whatever the raw weighted edges are, provided they are
   in range, non-negative and contain no self-loop (the code asks its backends for include_self=False), the
   artifact is built and the outgoing weights of EVERY node, isolated ones included, add up to one *)
Theorem C48_graph_row_stochastic : forall inv_sqrt n sym eps raw,
  nodes_in n raw -> Forall (fun p => 0 <= snd p) raw -> 0 < eps -> eps <= 1 ->
  (forall i w, ~ In ((i, i), w) raw) ->
  exists g ws,
    post_process inv_sqrt n sym true NormRw eps raw = Ok g /\
    ga_n g = n /\ ga_weights g = Some ws /\ length ws = length (ga_edges g) /\
    (forall i j, In (i, j) (ga_edges g) -> (0 <= i < n /\ 0 <= j < n)%Z) /\
    (forall i, (0 <= i < n)%Z -> In (i, i) (ga_edges g)) /\
    (forall i, (0 <= i < n)%Z -> sumQ (outgoing (ga_edges g) ws i) == 1).
Proof.
  intros f n sym eps raw Hn Hw He He1 Hnl.
  destruct (post_process_eq f n sym true NormRw eps raw Hn) as (E & Hlen & Hr).
  set (s := symmetrize Qmax q_avg n sym raw) in *.
  pose proof (symmetrize_nonneg n sym raw Hn Hw) as Hs. fold s in Hs.
  assert (Hnls : forall i w, In ((i, i), w) s -> False).
  { intros i w H. unfold s in H. destruct sym; [eapply Hnl, H| |].
    - apply (proj2 (symmetrize_spec Qmax q_avg n SymOr raw Hn or_not_none)) in H.
      unfold undirected_weight in H. rewrite Z.eqb_refl in H.
      assert (Hx : exists w, strongest Qmax raw i i = Some w) by eauto.
      apply strongest_some in Hx. apply in_map_iff in Hx. destruct Hx as [[e v] [Ee Hx]]. cbn in Ee; subst e.
      eapply Hnl, Hx.
    - apply (proj2 (symmetrize_spec Qmax q_avg n SymMutual raw Hn mutual_not_none)) in H.
      unfold undirected_weight in H. rewrite Z.eqb_refl in H.
      assert (Hx : exists w, strongest Qmax raw i i = Some w) by eauto.
      apply strongest_some in Hx. apply in_map_iff in Hx. destruct Hx as [[e v] [Ee Hx]]. cbn in Ee; subst e.
      eapply Hnl, Hx. }
  set (lw := looped n true s) in *.
  destruct (normalize_some f (fst lw) (snd lw) NormRw eps) as [ws Ews].
  exists {| ga_n := n; ga_edges := fst lw; ga_weights := Some ws;
            ga_directed := match sym with SymNone => true | _ => false end |}, ws.
  split; [rewrite E, Ews; reflexivity|]. cbn [ga_n ga_edges ga_weights].
  split; [reflexivity|]. split; [reflexivity|].
  split; [eapply normalize_length; eassumption|]. split; [exact Hr|]. split.
  - intros i Hi. unfold lw, looped. cbn [fst]. apply in_or_app. right. apply in_map_iff. exists i.
    split; [reflexivity|]. apply in_missing. split; [exact Hi|]. intros H. apply in_map_iff in H.
    destruct H as [[e v] [Ee H]]. cbn in Ee; subst e. eapply Hnls, H.
  - intros i Hi. eapply rw_stochastic; [exact Ews|exact He|].
    apply looped_degree; [exact Hs|exact Hi|exact He1|].
    intros w H. destruct (Hnls i w H).
Qed.

(* for or/mutual the artifact says "undirected", and without normalisation or with sym its two directions
   indeed agree; after rw they need not: the flag directed=False is then misleading *)
Theorem C48_rw_undirected_flag_refuted : exists n raw g ws,
  nodes_in n raw /\ Forall (fun p => 0 <= snd p) raw /\
  post_process (fun x => x) n SymOr false NormRw (1 # 1000) raw = Ok g /\
  ga_directed g = false /\ ga_weights g = Some ws /\
  (exists a b x y, In ((a, b), x) (combine (ga_edges g) ws) /\ In ((b, a), y) (combine (ga_edges g) ws) /\ ~ x == y).
Proof.
  exists 3%Z, [((0, 1)%Z, 1); ((1, 2)%Z, 1)]. do 2 eexists.
  split; [intros i j w H; repeat (destruct H as [H|H]; [inversion H; subst; lia|]); destruct H|].
  split; [repeat constructor; discriminate|]. split; [reflexivity|]. split; [reflexivity|]. split; [reflexivity|].
  exists 0%Z, 1%Z. do 2 eexists. split; [left; reflexivity|]. split; [right; right; left; reflexivity|].
  intros H. vm_compute in H. discriminate.
Qed.

Example C48_example : exists g,
  post_process (fun x => x) 3 SymMutual true NormRw (1 # 1000)
    [((0, 1)%Z, 1 # 2); ((1, 0)%Z, 1 # 4); ((1, 2)%Z, 1 # 3)] = Ok g /\
  ga_edges g = [(0, 1); (1, 0); (0, 0); (1, 1); (2, 2)]%Z.
Proof. eexists. split; reflexivity. Qed.

Print Assumptions C19_symmetrize_exact.
Print Assumptions C19_symmetrize_edges.
Print Assumptions C19_symmetrize_symmetric.
Print Assumptions C19_symmetrize_idempotent.
Print Assumptions C19_none_unchanged.
Print Assumptions C19_out_of_range_refuted.
Print Assumptions C20_add_self_loops.
Print Assumptions C20_idempotent.
Print Assumptions C21_rw_row_sums.
Print Assumptions C21_rw_pointwise.
Print Assumptions C21_sym_keeps_symmetry.
Print Assumptions C21_none_unchanged.
Print Assumptions C22_masks_exact.
Print Assumptions C22_masks_accept_iff_in_range.
Print Assumptions C22_masks_error_kind.
Print Assumptions C22_overlap_refuted.
Print Assumptions C22_unlabeled_without_list.
(* C48: an artifact is accepted exactly when every edge joins two nodes of the graph and there is one weight
   per edge *)
Theorem C48_artifact_accepted_iff : forall n (edges : list (Z * Z)) w directed,
  (exists a, make_artifact n edges w directed = Ok a) <->
  (forall i j, In (i, j) edges -> (0 <= i < n)%Z /\ (0 <= j < n)%Z) /\ (forall ws, w = Some ws -> length ws = length edges).
Proof. exact make_artifact_iff. Qed.
Print Assumptions C48_artifact_accepted_iff.
Print Assumptions C48_graph_row_stochastic.
Print Assumptions C48_rw_undirected_flag_refuted.
