(* C131: the walks of node2vec and their pairs.  C132: planetoid.  C133: the node2vec preprocessing step. *)
From Coq Require Import QArith Qminmax Permutation Sorted Lia Lqa.
From Coq Require Import ZifyBool ZifyNat.
From Verif Require Import Prelude QFacts ListFacts TsvmSpec N2vModel N2vSpec N2vProofs N2vTrainProofs.
Local Open Scope Z_scope.
Local Open Scope list_scope.
Local Notation length := List.length.

(* a generator that meets the contract: it takes the first possible value *)
Definition first_rng : walk_rng :=
  {| wr_state := unit; wr_seed := fun _ => tt; wr_integers := fun _ _ => (0, tt);
     wr_choice := fun _ xs ps => (hd 0 (map fst (filter (fun xp : Z * Q => negb (Qle_bool (snd xp) 0)) (combine xs ps))), tt);
     wr_shuffle := fun _ l => (l, tt); wr_rows := fun _ _ rows cols _ => (repeat (repeat 0 (Z.to_nat cols)) (Z.to_nat rows), tt) |}.
Example first_rng_ok : rng_ok first_rng.
Proof.
  split; [intros st n H; cbn; lia|]. split; [|split].
  - intros st xs ps. cbn [wr_choice first_rng fst]. revert ps. induction xs as [|x xs IH]; intros [|w ps] L P S; cbn in L; try lia.
    + exfalso. cbn in S. discriminate S.
    + cbn [combine filter map snd]. destruct (Qle_bool w 0) eqn:E; cbn [negb].
      * apply Qle_bool_iff in E. rewrite Qsum_cons in S. assert (0 <= w)%Q by (apply P; now left).
        destruct (IH ps ltac:(lia) (fun v Hv => P v (or_intror Hv)) ltac:(lra)) as (k & K1 & K2). exists (Datatypes.S k). split; [exact K1|exact K2].
      * exists 0%nat. split; [reflexivity|]. cbn. apply Qnot_le_lt. intros H. apply Qle_bool_iff in H. congruence.
  - intros st l. reflexivity.
  - intros st n rows cols dist Hn Hr _ _ _. cbn. split; [apply repeat_length|]. intros r H. apply repeat_spec in H as ->. split; [apply repeat_length|]. intros v Hv. apply repeat_spec in Hv. lia.
Qed.
Example pow_ok_id : pow_ok (fun x => x). Proof. intros x H. lra. Qed.
Example randperm_ok_id : randperm_ok (fun (t : Z) n => (arange n, t + 1)). Proof. intros t n. reflexivity. Qed.

(* ---- C131 *)
(* the neighbours used by the walks: one entry per node, in increasing order, and exactly the linked nodes *)
Theorem C131_adjacency : forall edges n u, 0 <= n ->
  lenZ (build_adjacency edges n u) = n /\
  forall i, 0 <= i < n -> neighbours (linked edges n u) i (nth (Z.to_nat i) (build_adjacency edges n u) []).
Proof. intros edges n u Hn. split; [now apply build_length|]. intros i Hi. split; [apply build_sorted|]. intros x. now apply build_In. Qed.
(* every walk is drawn by the rule of node2vec, node after node, from one generator seeded once *)
Theorem C131_drawn : forall R edges n u p q num len seed, rng_ok R -> 0 <= n -> exists starts st,
  walks_drawn (linked edges n u) p q R (Z.to_nat (len - 1)) starts (wr_seed R seed) (random_walks R (build_adjacency edges n u) p q num len seed) st /\ Sorted Z.le starts /\
  forall v, ((exists j, linked edges n u v j) -> countZ v starts = Z.max num 0) /\ ((forall j, ~ linked edges n u v j) -> countZ v starts = 0).
Proof.
  intros R edges n u p q num len seed RO Hn. destruct (walks_ok R RO edges n u p q num len seed Hn) as [st H]. exists (starts edges n u num), st. split; [exact H|]. split; [|intros v; apply starts_count].
  apply StronglySorted_Sorted. unfold starts. apply start_list_sorted, arange_ascending.
Qed.
(* each walk goes along links, has at most the asked length, and is shorter only if it ends at a node without links *)
Theorem C131_walks : forall R edges n u p q num len seed w, rng_ok R -> 0 <= n -> In w (random_walks R (build_adjacency edges n u) p q num len seed) ->
  w <> [] /\ follows (linked edges n u) w /\ (forall v, In v w -> 0 <= v < n) /\ (exists j, linked edges n u (hd 0 w) j) /\ lenZ w <= Z.max 1 len /\
  (lenZ w < len -> forall x, ~ linked edges n u (List.last w 0) x).
Proof.
  intros R edges n u p q num len seed w RO Hn Hw. destruct (walk_facts R RO edges n u p q num len seed Hn) as [_ F]. cbv zeta in F. destruct (F w Hw) as (A & B & C & D & E & G).
  split; [exact B|]. split; [exact C|]. split; [exact G|]. split; [exact A|]. unfold lenZ. split; [lia|]. intros L. apply E. lia.
Qed.
(* on an undirected graph every walk has exactly the asked length *)
Theorem C131_full_length : forall R edges n p q num len seed w, rng_ok R -> 0 <= n -> 1 <= len -> In w (random_walks R (build_adjacency edges n true) p q num len seed) -> lenZ w = len.
Proof.
  intros R edges n p q num len seed w RO Hn HL Hw. destruct (C131_walks R edges n true p q num len seed w RO Hn Hw) as (A & B & _ & [j Hj] & D & E).
  destruct (Z.lt_ge_cases (lenZ w) len) as [L|L]; [|lia]. exfalso. specialize (E L). clear D L Hw. destruct (exists_last A) as (w' & x & ->). rewrite last_last in E. destruct (exists_last (l := w')) as (w'' & y & ->).
  - intros ->. cbn in Hj. exact (E j Hj).
  - apply (E y). apply linked_sym. apply (B (length w'')); rewrite <- app_assoc; rewrite nth_error_app2 by lia; [now rewrite Nat.sub_diag|]. now replace (Datatypes.S (length w'') - length w'')%nat with 1%nat by lia.
Qed.
(* the next node after a step from prev to cur has the probabilities of node2vec *)
Theorem C131_transition : forall edges n u p q prev cur, 0 <= prev < n -> 0 <= cur < n -> (exists j, linked edges n u cur j) ->
  biased (linked edges n u) p q prev (nth (Z.to_nat cur) (build_adjacency edges n u) []) (probs (build_adjacency edges n u) p q prev cur).
Proof.
  intros edges n u p q prev cur Hp Hc [j Hj]. apply probs_biased; [intros x; now apply build_In|]. apply (build_In edges n u cur j Hc) in Hj. intros E. unfold nbrs in *. rewrite E in Hj. destruct Hj.
Qed.
(* the pairs: every two different positions of a walk at most window apart, once in each order *)
Theorem C131_pairs : forall walks window, exists spots, NoDup spots /\ (forall t, In t spots <-> close_by walks window t) /\ walk_pairs walks window = map (pair_at walks) spots.
Proof. intros walks window. exists (spots walks window). split; [apply spots_NoDup|]. split; [apply spots_In|apply walk_pairs_spots]. Qed.
Theorem C131_symmetric : forall walks window, Permutation (walk_pairs walks window) (map (fun ab => (snd ab, fst ab)) (walk_pairs walks window)).
Proof. exact pairs_symmetric. Qed.
(* both nodes of a pair have a link: an isolated node is in no pair *)
Theorem C131_isolated : forall R edges n u p q num len seed window a b, rng_ok R -> 0 <= n ->
  In (a, b) (walk_pairs (random_walks R (build_adjacency edges n u) p q num len seed) window) ->
  (exists x, linked edges n u a x \/ linked edges n u x a) /\ exists x, linked edges n u b x \/ linked edges n u x b.
Proof. intros R edges n u p q num len seed window a b RO Hn. apply pair_nodes. intros w Hw. now apply (C131_walks R edges n u p q num len seed w RO Hn Hw). Qed.
(* an edge outside the graph and a loop are ignored; a directed walk stops at a node without outgoing links *)
Example C131_case :
  random_walks first_rng (build_adjacency [(0, 1); (1, 2); (7, 1); (2, 2)] 4 true) 1 1 2 4 0 = [[0; 1; 0; 1]; [0; 1; 0; 1]; [1; 0; 1; 0]; [1; 0; 1; 0]; [2; 1; 0; 1]; [2; 1; 0; 1]] /\
  random_walks first_rng (build_adjacency [(0, 1); (1, 2)] 4 false) (1 # 2) 2 1 4 0 = [[0; 1; 2]; [1; 2]] /\
  walk_pairs [[5; 6; 7]] 1 = [(5, 6); (6, 5); (6, 7); (7, 6)].
Proof. repeat split; vm_compute; reflexivity. Qed.

(* ---- C132 *)
Definition fit_possible (sp : planetoid_spec) (d : prepared) : Prop :=
  (exists i j, linked (pp_edges d) (pp_n d) (ps_undirected sp) i j) /\ 1 <= ps_num_walks sp /\ 2 <= ps_walk_length sp /\ 1 <= ps_window sp /\ In true (pp_train d) /\ (1 <= ps_epochs sp -> ps_batch sp <> 0).
Lemma where_true_nil mask : where_true mask <> [] <-> In true mask.
Proof.
  split.
  - intros H. destruct (where_true mask) as [|v l] eqn:E; [now destruct H|]. assert (V : In v (where_true mask)) by (rewrite E; now left). apply where_true_In in V as [V1 V2].
    rewrite <- V2. apply nth_In. destruct (Nat.lt_ge_cases (Z.to_nat v) (length mask)) as [L|L]; [exact L|]. rewrite nth_overflow in V2 by exact L. discriminate.
  - intros H E. apply (In_nth _ _ false) in H as (i & _ & H). assert (V : In (Z.of_nat i) (where_true mask)) by (apply where_true_In; rewrite Nat2Z.id; split; [lia|exact H]). rewrite E in V. destruct V.
Qed.
(* the only failure is a ValueError, and it happens exactly when there is nothing to train on or the batch size is zero *)
Theorem C132_returns : forall R Theta T init step randperm pow sp d seed t, rng_ok R -> 0 <= pp_n d ->
  ((exists r, planetoid_fit R Theta T init step randperm pow sp d seed t = Ok r) <-> fit_possible sp d) /\
  forall e, planetoid_fit R Theta T init step randperm pow sp d seed t = Err e -> e = ValueError.
Proof.
  intros R Theta T init step randperm pow sp d seed t RO Hn. unfold planetoid_fit, planetoid_pairs, fit_possible.
  pose proof (graph_pairs_nonempty R (pp_edges d) (pp_n d) (ps_undirected sp) (ps_p sp) (ps_q sp) (ps_num_walks sp) (ps_walk_length sp) seed (ps_window sp) RO Hn) as GP.
  pose proof (where_true_nil (pp_train d)) as WT. cbv zeta. destruct (walk_pairs _ _) as [|pr prs].
  - split; [|congruence]. split; [intros [r [=]]|]. intros (A & B & C & D & _). exfalso. apply (proj2 GP); auto.
  - destruct (init (pp_n d) (pp_classes d) t) as [th t1]. destruct (where_true (pp_train d)) as [|v vs].
    + split; [|congruence]. split; [intros [r [=]]|]. intros (_ & _ & _ & _ & W & _). exfalso. now apply (proj2 WT).
    + split; [|apply run_epochs_err]. rewrite run_epochs_total. destruct (proj1 GP ltac:(discriminate)) as (A & B & C & D). pose proof (proj1 WT ltac:(discriminate)) as W. intuition lia.
Qed.
(* a fit goes epochs times over all pairs, in batches, with negatives and different training nodes with their own labels *)
Theorem C132_fit : forall R Theta T init step randperm pow sp d seed t r, rng_ok R -> randperm_ok randperm -> pow_ok pow -> 0 <= ps_sup_batch sp -> 0 < ps_batch sp ->
  planetoid_fit R Theta T init step randperm pow sp d seed t = Ok r ->
  exists epochs, length epochs = Z.to_nat (ps_epochs sp) /\ Forall (an_epoch (planetoid_pairs R sp d seed) (ps_batch sp)) epochs /\
    (forall b, In b (concat epochs) -> negatives_ok (pp_n d) (ps_num_negative sp) b /\ labelled_ok (pp_train d) (pp_y d) (ps_sup_batch sp) b) /\
    fst r = fold_left step (concat epochs) (fst (init (pp_n d) (pp_classes d) t)).
Proof.
  intros R Theta T init step randperm pow sp d seed t [th' t'] RO RP PO Hs HB. unfold planetoid_fit. cbv zeta. set (pairs := planetoid_pairs R sp d seed). destruct pairs as [|pr prs] eqn:EP; [discriminate|]. rewrite <- EP.
  destruct (init (pp_n d) (pp_classes d) t) as [th t1]. destruct (where_true (pp_train d)) as [|v vs] eqn:EW; [discriminate|]. rewrite <- EW. intros E. cbn [fst].
  assert (Hn : 0 < pp_n d).
  { destruct (Z.lt_ge_cases 0 (pp_n d)) as [L|L]; [exact L|]. exfalso. assert (X : build_adjacency (pp_edges d) (pp_n d) (ps_undirected sp) = []).
    { assert (length (build_adjacency (pp_edges d) (pp_n d) (ps_undirected sp)) = 0%nat) by (unfold build_adjacency; rewrite map_length, fold_length, repeat_length; lia). destruct (build_adjacency _ _ _); [reflexivity|discriminate]. }
    unfold pairs, planetoid_pairs in EP. rewrite X in EP. discriminate. }
  assert (HA : build_adjacency (pp_edges d) (pp_n d) (ps_undirected sp) <> []).
  { intros X. pose proof (build_length (pp_edges d) (pp_n d) (ps_undirected sp) ltac:(lia)) as L. rewrite X in L. cbn in L. lia. }
  destruct (dist_ok pow _ PO HA) as (D1 & D2 & D3). rewrite build_length in D1 by lia.
  eapply (run_epochs_ok R RO Theta T step randperm RP pairs _ _ _ _ (pp_train d) (pp_y d) Hn Hs (conj D1 (conj D2 D3))); [reflexivity|exact HB|exact E].
Qed.
(* the labels of the other nodes are never read *)
Theorem C132_hidden : forall R Theta T init step randperm pow sp d d' seed t, randperm_ok randperm -> 0 <= ps_sup_batch sp ->
  pp_n d = pp_n d' -> pp_classes d = pp_classes d' -> pp_edges d = pp_edges d' -> pp_train d = pp_train d' ->
  (forall v, 0 <= v -> nth (Z.to_nat v) (pp_train d) false = true -> nth (Z.to_nat v) (pp_y d) 0 = nth (Z.to_nat v) (pp_y d') 0) ->
  planetoid_fit R Theta T init step randperm pow sp d seed t = planetoid_fit R Theta T init step randperm pow sp d' seed t.
Proof.
  intros R Theta T init step randperm pow sp [n c es y tr] [n' c' es' y' tr'] seed t RP Hs. cbn [pp_n pp_classes pp_edges pp_train pp_y]. intros <- <- <- <- HY. unfold planetoid_fit, planetoid_pairs. cbn [pp_n pp_classes pp_edges pp_train pp_y]. cbv zeta.
  destruct (walk_pairs _ _); [reflexivity|]. destruct (init n c t) as [th t1]. destruct (where_true tr) as [|v vs] eqn:EW; [reflexivity|]. rewrite <- EW. apply run_epochs_y; assumption.
Qed.
(* a node without links and outside the training nodes is never the centre or context of a pair, nor a labelled node: only
   as a negative does it enter a batch.  The batches of a fit are what the fit computes when the step records them *)
Definition recorded (R : walk_rng) {T} (randperm : T -> Z -> list Z * T) (pow : Q -> Q) (sp : planetoid_spec) (d : prepared) (seed : Z) (t : T) : result (list batch * T) :=
  planetoid_fit R (list batch) T (fun _ _ t => ([], t)) (fun bs b => bs ++ [b]) randperm pow sp d seed t.
Theorem C132_isolated : forall R T (randperm : T -> Z -> list Z * T) pow sp d seed t bs t' v, rng_ok R -> randperm_ok randperm -> pow_ok pow -> 0 <= ps_sup_batch sp -> 0 < ps_batch sp -> 0 <= pp_n d ->
  recorded R randperm pow sp d seed t = Ok (bs, t') ->
  (forall x, ~ linked (pp_edges d) (pp_n d) (ps_undirected sp) v x /\ ~ linked (pp_edges d) (pp_n d) (ps_undirected sp) x v) -> nth (Z.to_nat v) (pp_train d) false = false ->
  forall b, In b bs -> ~ In v (ba_centers b) /\ ~ In v (ba_contexts b) /\ ~ In v (ba_nodes b).
Proof.
  intros R T randperm pow sp d seed t bs t' v RO RP PO Hs HB Hn E IS TR b Hb. destruct (C132_fit _ _ _ _ _ _ _ _ _ _ _ _ RO RP PO Hs HB E) as (es & _ & EP & SD & EB). cbn [fst] in EB.
  assert (X : forall l acc : list batch, fold_left (fun bs b => bs ++ [b]) l acc = acc ++ l) by (induction l as [|z l IH]; intros acc; cbn; [now rewrite app_nil_r|]; rewrite IH, <- app_assoc; reflexivity).
  rewrite X in EB. cbn in EB. subst bs. destruct (SD b Hb) as [_ (_ & LB & _)].
  assert (PR : forall a c, In (a, c) (combine (ba_centers b) (ba_contexts b)) -> In (a, c) (planetoid_pairs R sp d seed)).
  { intros a c H. apply in_concat in Hb as (bs & Hbs & Hb). rewrite Forall_forall in EP. destruct (EP bs Hbs) as (order & PE & CU & _). eapply Permutation_in; [exact PE|]. eapply TsvmProofs.cut_in; [exact CU| |exact H].
    apply (in_map (fun b => combine (ba_centers b) (ba_contexts b))). exact Hb. }
  assert (LE : length (ba_centers b) = length (ba_contexts b)).
  { apply in_concat in Hb as (bs & Hbs & Hb). rewrite Forall_forall in EP. destruct (EP bs Hbs) as (_ & _ & _ & L). now apply L. }
  assert (NP : forall a c, In (a, c) (planetoid_pairs R sp d seed) -> a <> v /\ c <> v).
  { intros a c H. destruct (C131_isolated _ _ _ _ _ _ _ _ _ _ _ _ RO Hn H) as [[x Hx] [z Hz]]. split; intros ->; [destruct (IS x)|destruct (IS z)]; tauto. }
  split; [|split].
  - intros H. apply (In_nth _ _ 0) in H as (k & Hk & E1). destruct (NP (nth k (ba_centers b) 0) (nth k (ba_contexts b) 0)) as [N _]; [|contradiction]. apply PR. rewrite <- combine_nth by exact LE. apply nth_In. rewrite combine_length. lia.
  - intros H. apply (In_nth _ _ 0) in H as (k & Hk & E1). destruct (NP (nth k (ba_centers b) 0) (nth k (ba_contexts b) 0)) as [_ N]; [|contradiction]. apply PR. rewrite <- combine_nth by exact LE. apply nth_In. rewrite combine_length. lia.
  - intros H. destruct (LB v H) as [_ H']. congruence.
Qed.
(* predictions: one row per node of the fitted graph, for a graph of the same size, after a fit *)
Theorem C132_predict : forall Theta softmax (logits : Theta -> list (list Q)) fitted n,
  (forall r, planetoid_predict Theta softmax logits fitted n = Ok r <-> exists th, fitted = Some (th, n) /\ r = map softmax (logits th)) /\
  (planetoid_predict Theta softmax logits fitted n = Err RuntimeError <-> fitted = None) /\
  (planetoid_predict Theta softmax logits fitted n = Err ValueError <-> exists th m, fitted = Some (th, m) /\ m <> n).
Proof.
  intros Theta softmax logits [[th m]|] n; cbn [planetoid_predict].
  - destruct (Z.eqb_spec n m) as [->|N]; cbn [negb].
    + split; [|split]; [intros r; split; [intros [= <-]; eauto|intros (th' & [= <-] & ->); reflexivity]|split; discriminate|split; [discriminate|]]. intros (th' & m' & [= <- <-] & H). now destruct H.
    + split; [|split]; [intros r; split; [discriminate|intros (th' & [= <- <-] & _); congruence]|split; discriminate|split; [intros _; exists th, m; auto|reflexivity]].
  - split; [|split]; [intros r; split; [discriminate|intros (th & [=] & _)]|split; reflexivity|split; [discriminate|intros (th & m & [=] & _)]].
Qed.
(* finding: with a negative batch size and any number of epochs the fit succeeds and returns the initial weights *)
Theorem C132_negative_batch_refuted : forall R Theta T init step randperm pow sp d seed t r, ps_batch sp < 0 ->
  planetoid_fit R Theta T init step randperm pow sp d seed t = Ok r -> r = init (pp_n d) (pp_classes d) t.
Proof.
  intros R Theta T init step randperm pow sp d seed t r HB. unfold planetoid_fit. cbv zeta. destruct (planetoid_pairs _ _ _ _); [discriminate|]. destruct (init (pp_n d) (pp_classes d) t) as [th t1]. destruct (where_true (pp_train d)); [discriminate|].
  rewrite run_epochs_negative by exact HB. congruence.
Qed.
Definition path_data : prepared := {| pp_n := 3; pp_classes := 2; pp_edges := [(0, 1); (1, 2)]; pp_y := [0; 1; 1]; pp_train := [true; false; true] |}.
Definition small_spec (batch sup : Z) : planetoid_spec :=
  {| ps_num_walks := 1; ps_walk_length := 3; ps_window := 1; ps_p := 1; ps_q := 2; ps_num_negative := 1; ps_batch := batch; ps_sup_batch := sup; ps_epochs := 1; ps_undirected := true |}.
Definition perms (t n : Z) : list Z * Z := (if Z.even t then arange n else rev (arange n), t + 1).
Example perms_ok : randperm_ok perms. Proof. intros t n. unfold perms. destruct (Z.even t); cbn; [reflexivity|]. symmetry. apply Permutation_rev. Qed.
(* finding: the labelled nodes of a batch, and the initial weights, come from the generator of torch that no one seeds: the
   same data and the same seed give different fits *)
Theorem C132_torch_refuted : exists R (randperm : Z -> Z -> list Z * Z) pow sp d seed t1 t2, rng_ok R /\ randperm_ok randperm /\ pow_ok pow /\ fit_possible sp d /\
  forall r1 r2, recorded R randperm pow sp d seed t1 = Ok r1 -> recorded R randperm pow sp d seed t2 = Ok r2 -> fst r1 <> fst r2.
Proof.
  exists first_rng, perms, (fun x => x), (small_spec 100 1), path_data, 0, 0, 1. split; [exact first_rng_ok|]. split; [exact perms_ok|]. split; [exact pow_ok_id|]. split.
  - split; [exists 0, 1; repeat split; try lia; left; left; reflexivity|]. cbn. repeat split; try lia; auto.
  - intros r1 r2 E1 E2. vm_compute in E1, E2. injection E1 as <-. injection E2 as <-. intros H. vm_compute in H. discriminate H.
Qed.
(* finding: a negative can be the context node itself *)
Theorem C132_negatives_refuted : exists R (randperm : Z -> Z -> list Z * Z) pow sp d seed t bs t' b k, rng_ok R /\ randperm_ok randperm /\ pow_ok pow /\
  recorded R randperm pow sp d seed t = Ok (bs, t') /\ In b bs /\ (k < length (ba_contexts b))%nat /\ In (nth k (ba_contexts b) 0) (nth k (ba_negatives b) []).
Proof.
  exists first_rng, perms, (fun x => x), (small_spec 1 1), path_data, 0, 0. destruct (recorded first_rng perms (fun x => x) (small_spec 1 1) path_data 0 0) as [[bs t']|e] eqn:E; vm_compute in E; [|discriminate E]. injection E as <- <-.
  do 2 eexists. exists {| ba_centers := [1]; ba_contexts := [0]; ba_negatives := [[0]]; ba_nodes := [2]; ba_labels := [1] |}, 0%nat.
  split; [exact first_rng_ok|]. split; [exact perms_ok|]. split; [exact pow_ok_id|]. split; [reflexivity|]. split; [cbn; tauto|]. cbn. split; [lia|now left].
Qed.
Example C132_case : exists bs t', recorded first_rng perms (fun x => x) (small_spec 5 1) path_data 0 0 = Ok (bs, t') /\ length bs = 3%nat /\
  nth 0 bs {| ba_centers := []; ba_contexts := []; ba_negatives := []; ba_nodes := []; ba_labels := [] |} =
    {| ba_centers := [0; 1; 1; 0; 1]; ba_contexts := [1; 0; 0; 1; 0]; ba_negatives := [[0]; [0]; [0]; [0]; [0]]; ba_nodes := [0]; ba_labels := [0] |}.
Proof. do 2 eexists. split; [vm_compute; reflexivity|]. split; reflexivity. Qed.

(* ---- C133 *)
Definition step_possible (sp : n2v_spec) (n : Z) (edges : list (Z * Z)) : Prop :=
  1 <= ns_dim sp /\ 1 <= ns_num_walks sp /\ 2 <= ns_walk_length sp /\ 1 <= ns_window sp /\ 1 <= ns_num_negative sp /\ 1 <= ns_batch sp /\ 1 <= ns_epochs sp /\
  exists i j, linked edges n (ns_undirected sp) i j.
(* an edge list is read from two rows, or else from two columns *)
Theorem C133_edges : forall rows cols a, 0 <= rows -> 0 <= cols ->
  (rows = 2 -> exists es, edges_of rows cols a = Ok es /\ lenZ es = cols /\ forall j, 0 <= j < cols -> nth_error es (Z.to_nat j) = Some (a 0 j, a 1 j)) /\
  (rows <> 2 -> cols = 2 -> exists es, edges_of rows cols a = Ok es /\ lenZ es = rows /\ forall j, 0 <= j < rows -> nth_error es (Z.to_nat j) = Some (a j 0, a j 1)) /\
  (rows <> 2 -> cols <> 2 -> edges_of rows cols a = Err PreprocessError).
Proof.
  intros rows cols a Hr Hc. unfold edges_of.
  assert (X : forall (f : Z -> Z * Z) k, 0 <= k -> lenZ (map f (arange k)) = k /\ forall j, 0 <= j < k -> nth_error (map f (arange k)) (Z.to_nat j) = Some (f j)).
  { intros f k Hk. split; [unfold lenZ; rewrite map_length, arange_length; lia|]. intros j Hj. apply map_nth_error. unfold arange. rewrite nth_error_map, (nth_error_nth' _ 0%nat) by (rewrite seq_length; lia). rewrite seq_nth by lia. cbn. f_equal. lia. }
  split; [|split].
  - intros ->. cbn [Z.eqb Pos.eqb negb andb]. eexists. split; [reflexivity|]. exact (X (fun j => (a 0 j, a 1 j)) cols Hc).
  - intros N ->. destruct (Z.eqb_spec rows 2); [contradiction|]. cbn [Z.eqb Pos.eqb negb andb]. eexists. split; [reflexivity|]. exact (X (fun j => (a j 0, a j 1)) rows Hr).
  - intros N M. destruct (Z.eqb_spec rows 2); [contradiction|]. destruct (Z.eqb_spec cols 2); [contradiction|]. reflexivity.
Qed.
Theorem C133_returns : forall R Theta T init step pow sp n rows cols a seed t, rng_ok R -> 0 <= n ->
  ((exists r, n2v_transform R Theta T init step pow sp n rows cols a seed t = Ok r) <-> exists edges, edges_of rows cols a = Ok edges /\ step_possible sp n edges) /\
  forall e, n2v_transform R Theta T init step pow sp n rows cols a seed t = Err e -> e = PreprocessError.
Proof.
  intros R Theta T init step pow sp n rows cols a seed t RO Hn. unfold n2v_transform, step_possible. destruct (edges_of rows cols a) as [edges|e] eqn:EE; cbn [bind].
  2: { split; [split; [intros [r [=]]|intros (es & [=] & _)]|]. intros e' [= ->]. revert EE. unfold edges_of. destruct (_ && _); [discriminate|]. destruct (negb _); congruence. }
  assert (X : forall P Q : Prop, (exists es : list (Z * Z), @Ok (list (Z * Z)) edges = Ok es /\ P /\ Q) <-> P /\ Q) by (intros P Q; split; [intros (es & _ & H); exact H|intros H; exists edges; auto]).
  repeat match goal with |- context [if ?x <=? ?y then Err _ else _] => let E := fresh "E" in destruct (x <=? y) eqn:E; [split; [split; [intros [r [=]]|intros (es & [= <-] & H); lia]|congruence]|] end.
  pose proof (graph_pairs_nonempty R edges n (ns_undirected sp) (ns_p sp) (ns_q sp) (ns_num_walks sp) (ns_walk_length sp) seed (ns_window sp) RO Hn) as GP. cbv zeta. destruct (walk_pairs _ _) as [|pr prs].
  - split; [|congruence]. split; [intros [r [=]]|]. intros (es & [= <-] & H). exfalso. apply (proj2 GP); [|reflexivity]. intuition lia.
  - destruct (init n (ns_dim sp) t) as [th t1]. split.
    + rewrite run_epochs_total. split; [|intros; lia]. intros _. exists edges. split; [reflexivity|]. destruct (proj1 GP ltac:(discriminate)) as (A & B & C & D). repeat split; try lia. exact D.
    + intros e E5'. destruct (run_epochs_total R Theta T step (fun t _ => ([], t)) (pr :: prs) (negative_dist pow (build_adjacency edges n (ns_undirected sp))) n (ns_num_negative sp) 0 [] [] (ns_batch sp) (Z.to_nat (ns_epochs sp)) (arange (lenZ (pr :: prs))) th (wr_seed R seed) t1) as [_ H].
      destruct H as [r Hr]; [lia|]. exfalso. rewrite Hr in E5'. discriminate.
Qed.
(* the embedding is trained on the pairs of the walks, epoch by epoch, with the asked number of negatives *)
Theorem C133_fit : forall R Theta T init step pow sp n rows cols a seed t r edges, rng_ok R -> pow_ok pow -> 0 <= n -> edges_of rows cols a = Ok edges ->
  n2v_transform R Theta T init step pow sp n rows cols a seed t = Ok r ->
  exists epochs, length epochs = Z.to_nat (ns_epochs sp) /\
    Forall (an_epoch (walk_pairs (random_walks R (build_adjacency edges n (ns_undirected sp)) (ns_p sp) (ns_q sp) (ns_num_walks sp) (ns_walk_length sp) seed) (ns_window sp)) (ns_batch sp)) epochs /\
    (forall b, In b (concat epochs) -> negatives_ok n (ns_num_negative sp) b /\ ba_nodes b = []) /\ fst r = fold_left step (concat epochs) (fst (init n (ns_dim sp) t)).
Proof.
  intros R Theta T init step pow sp n rows cols a seed t [th' t'] edges RO PO Hn0 EE. unfold n2v_transform. rewrite EE. cbn [bind].
  repeat match goal with |- context [if ?x <=? ?y then Err _ else _] => let E := fresh "E" in destruct (x <=? y) eqn:E; [discriminate|] end. cbv zeta.
  set (pairs := walk_pairs _ _). destruct pairs as [|pr prs] eqn:EP; [discriminate|]. rewrite <- EP. destruct (init n (ns_dim sp) t) as [th t1]. cbn [fst]. intros E'.
  assert (HA : build_adjacency edges n (ns_undirected sp) <> []) by (intros X; unfold pairs in EP; rewrite X in EP; discriminate).
  destruct (dist_ok pow _ PO HA) as (D1 & D2 & D3). rewrite build_length in D1 by lia.
  assert (Hn : 0 < n) by (destruct (Z.eq_dec n 0) as [Z0|]; [exfalso; apply HA; rewrite Z0; clear; unfold build_adjacency; assert (L := fold_length 0 (ns_undirected sp) edges (repeat [] (Z.to_nat 0))); cbn in L |- *; now destruct (fold_left _ _ _)|lia]).
  change (@nil Z) with (where_true []) in E' at 1.
  assert (RP : randperm_ok (fun (t : T) (k : Z) => (arange k, t))) by (intros ? ?; reflexivity).
  rewrite (run_epochs_unlabelled R Theta T step _ (fun t k => (arange k, t))) in E'.
  destruct (run_epochs_ok R RO Theta T step _ RP pairs _ n (ns_num_negative sp) 0 [] [] Hn ltac:(lia) (conj D1 (conj D2 D3)) (ns_batch sp) _ _ _ _ _ _ _ (Permutation_refl _) ltac:(lia) E') as (es & A & B & C & D).
  exists es. split; [exact A|]. split; [exact B|]. split; [|exact D]. intros b Hb. destruct (C b Hb) as [C1 (_ & _ & C2 & _)]. split; [exact C1|]. cbn in C2. unfold lenZ in C2. destruct (ba_nodes b); [reflexivity|cbn in C2; lia].
Qed.
(* finding: two edges given one per row are read as two rows of sources and targets *)
Theorem C133_two_edges_refuted : forall a, edges_of 2 2 a = Ok [(a 0 0, a 1 0); (a 0 1, a 1 1)].
Proof. intros a. reflexivity. Qed.
(* finding: edges with an endpoint outside the graph are dropped without an error *)
Theorem C133_outside_refuted : forall es1 es2 n u s d, ~ (0 <= s < n /\ 0 <= d < n) -> build_adjacency (es1 ++ (s, d) :: es2) n u = build_adjacency (es1 ++ es2) n u.
Proof.
  intros es1 es2 n u s d H. unfold build_adjacency. f_equal. rewrite !fold_left_app. cbn [fold_left]. f_equal. unfold add_edge. destruct (_ && _) eqn:E; [|reflexivity]. exfalso. apply H. rewrite !andb_true_iff in E. lia.
Qed.
Definition small_step : n2v_spec := {| ns_dim := 2; ns_num_walks := 1; ns_walk_length := 3; ns_window := 1; ns_p := 1; ns_q := 1; ns_num_negative := 1; ns_batch := 4; ns_epochs := 1; ns_undirected := true |}.
Example C133_case : exists bs t', n2v_transform first_rng (list batch) Z (fun _ _ t => ([], t)) (fun bs b => bs ++ [b]) (fun x => x) small_step 3 3 2 (fun i j => i mod 2 + j) 0 0 = Ok (bs, t') /\ length bs = 3%nat /\
  ba_centers (nth 0 bs {| ba_centers := []; ba_contexts := []; ba_negatives := []; ba_nodes := []; ba_labels := [] |}) = [0; 1; 1; 0].
Proof. do 2 eexists. split; [vm_compute; reflexivity|]. split; reflexivity. Qed.

Print Assumptions C131_adjacency.
Print Assumptions C131_drawn.
Print Assumptions C131_walks.
Print Assumptions C131_full_length.
Print Assumptions C131_transition.
Print Assumptions C131_pairs.
Print Assumptions C131_symmetric.
Print Assumptions C131_isolated.
Print Assumptions C132_returns.
Print Assumptions C132_fit.
Print Assumptions C132_hidden.
Print Assumptions C132_isolated.
Print Assumptions C132_predict.
Print Assumptions C132_negative_batch_refuted.
Print Assumptions C132_torch_refuted.
Print Assumptions C132_negatives_refuted.
Print Assumptions C133_edges.
Print Assumptions C133_returns.
Print Assumptions C133_fit.
Print Assumptions C133_two_edges_refuted.
Print Assumptions C133_outside_refuted.
