(* C121: the coarsening of H-GCN. *)
From Coq Require Import QArith Lia Sorting.Permutation.
From Coq Require Import ZifyBool ZifyNat.
From Verif Require Import Prelude ListFacts QFacts TransModel TransProofs HgModel HgSpec HgProofs.
Local Open Scope nat_scope.
Local Open Scope list_scope.

(* The matrix the levels start from: the weight from i to j is what the edges from i to j weigh together;
   when symmetrized it is the larger of the two directions.  Self-loops are dropped. *)
Theorem C121_dense : forall edges n symmetrize i j, i < n -> j < n ->
  let w := entry (dense_adjacency edges n symmetrize) i j in
  let there := weight_between edges i j in let back := weight_between edges j i in
  (i = j -> (w == 0)%Q) /\
  (i <> j -> symmetrize = false -> (w == there)%Q) /\
  (i <> j -> symmetrize = true -> ((there <= w)%Q /\ (back <= w)%Q /\ ((w == there)%Q \/ (w == back)%Q)) /\
     (w == entry (dense_adjacency edges n symmetrize) j i)%Q).
Proof.
  intros edges n symmetrize i j Hi Hj w there back. subst w there back.
  split; [| split].
  - intros ->. unfold dense_adjacency. rewrite entry_tabulate, Nat.eqb_refl by assumption. reflexivity.
  - intros NE ->. unfold dense_adjacency. rewrite entry_tabulate by assumption.
    rewrite (proj2 (Nat.eqb_neq i j) NE). apply dense_entry_is, NE.
  - intros NE ->. split; [| apply dense_symmetric; assumption]. unfold dense_adjacency. rewrite entry_tabulate by assumption.
    rewrite (proj2 (Nat.eqb_neq i j) NE).
    assert (NE' : j <> i) by congruence.
    destruct (qmax_is (dense_entry edges i j) (dense_entry edges j i)) as [A [B C]].
    rewrite (dense_entry_is edges i j NE) in A at 1. rewrite (dense_entry_is edges j i NE') in B at 1.
    split; [exact A |]. split; [exact B |].
    destruct C as [C|C]; [left; rewrite C; apply dense_entry_is, NE | right; rewrite C; apply dense_entry_is, NE'].
Qed.

(* One coarsening groups the nodes: every node is in exactly one group, of one or two nodes, and the
   groups are formed in the order listed, each out of the nodes earlier groups left: two nodes with the
   same neighbours, or a node and the free neighbour it scores highest, or a node with no free
   neighbour. *)
Theorem C121_groups : forall score adj weights,
  let n := length adj in
  let groups := coarse_groups score adj weights in
  partition n groups /\ (forall g, In g groups -> length g = 1 \/ length g = 2) /\
  length groups <= n <= 2 * length groups /\
  (forall pre g post, groups = pre ++ g :: post ->
     well_grouped n (entry adj)
       (fun v u => score (entry adj v u) (nth v weights 0%Z) (nth u weights 0%Z)) (fun u => In u (concat pre)) g).
Proof.
  intros score adj weights n groups. destruct (groups_ok score adj weights) as [P [SZ O]].
  split; [exact P |]. split; [exact (proj1 (Forall_forall _ _) SZ) |]. split; [apply coarse_count | exact O].
Qed.

(* The coarse graph: its nodes are the groups; the membership matrix has a one exactly where a node is in
   a group; the weight between two groups is what the edges between their members weigh together; a
   group weighs what its members weigh.  So the total edge weight and the total node weight stay. *)
Theorem C121_coarse : forall score adj weights, length weights = length adj ->
  let n := length adj in
  let groups := coarse_groups score adj weights in
  let k := length groups in
  let '(M, adj', weights') := coarsen score adj weights in
  shape n k M /\ shape k k adj' /\ length weights' = k /\
  (forall i g, i < n -> g < k ->
     (In i (nth g groups []) -> entry M i g = 1%Q) /\ (~ In i (nth g groups []) -> entry M i g = 0%Q)) /\
  (forall g h, g < k -> h < k -> (entry adj' g h == between (entry adj) (nth g groups []) (nth h groups []))%Q) /\
  (forall g, g < k -> nth g weights' 0%Z = sumZ (map (fun i => nth i weights 0%Z) (nth g groups []))) /\
  (total k (entry adj') == total n (entry adj))%Q /\ sumZ weights' = sumZ weights /\
  (symmetric n (entry adj) -> symmetric k (entry adj')).
Proof.
  intros score adj weights LW n groups k. destruct (coarsen score adj weights) as [[M adj'] weights'] eqn:C.
  assert (EM : M = group_matrix n groups) by (unfold coarsen in C; injection C as <- _ _; reflexivity).
  assert (EA : adj' = snd (fst (coarsen score adj weights))) by (rewrite C; reflexivity).
  assert (EW : weights' = snd (coarsen score adj weights)) by (rewrite C; reflexivity).
  split; [rewrite EM; apply shape_tabulate |].
  split; [rewrite EA; apply coarse_shape |].
  split; [rewrite EW, coarse_weights, map_length; reflexivity |].
  split. { intros i g Hi Hg. rewrite EM, group_entry by assumption. split; intros I.
    - apply mem_In in I. rewrite I. reflexivity.
    - apply mem_false in I. rewrite I. reflexivity. }
  split; [intros g h Hg Hh; rewrite EA; apply coarse_entry; assumption |].
  split. { intros g Hg. rewrite EW, coarse_weights. rewrite (nth_indep _ 0%Z (sumZ (map (wat weights) []))) by (rewrite map_length; exact Hg).
    rewrite (map_nth (fun g => sumZ (map (wat weights) g)) (coarse_groups score adj weights) []). reflexivity. }
  split; [rewrite EA; apply coarse_total |].
  split; [rewrite EW; apply coarse_weight_total, LW |].
  rewrite EA. apply coarse_symmetric.
Qed.

(* Features go down and up along the groups: pooling adds the rows of the members of a group, unpooling
   copies the row of the group to each member. *)
Theorem C121_features : forall score adj weights G d,
  let n := length adj in
  let groups := coarse_groups score adj weights in
  let k := length groups in
  let M := fst (fst (coarsen score adj weights)) in
  (forall g c, g < k -> c < d ->
     (entry (pool M G n k d) g c == Qsum (map (fun i => entry G i c) (nth g groups [])))%Q) /\
  (forall i g c, i < n -> g < k -> c < d -> In i (nth g groups []) -> (entry (unpool M G n k d) i c == entry G g c)%Q).
Proof.
  intros score adj weights G d n groups k M. pose proof (coarse_part score adj weights) as P. fold n groups in P. split.
  - intros g c Hg Hc. unfold pool. rewrite entry_tabulate by assumption. exact (pooled_sum n groups P g (fun i => entry G i c) Hg).
  - intros i g c Hi Hg Hc I. unfold unpool. rewrite entry_tabulate by assumption.
    rewrite (Qsum_ext _ (fun h => ((if mem h [g] then 1 else 0) * entry G h c)%Q) (seq 0 k)).
    + rewrite (sum_members [g] k (fun h => entry G h c)); [cbn [map]; rewrite Qsum_cons, Qsum_nil; ring | repeat constructor; intros [] | intros x [<-|[]]; exact Hg].
    + intros h Hh. apply in_seq in Hh. change (entry M i h) with (entry (group_matrix n groups) i h). rewrite group_entry by lia.
      assert (E : mem i (nth h groups []) = mem h [g]); [| rewrite E; reflexivity].
      destruct (mem h [g]) eqn:D.
      * apply mem_In in D. destruct D as [<-|[]]. apply mem_In. exact I.
      * apply mem_false in D. apply mem_false. intros J. apply D. left.
        apply (nth_group_unique groups i g h); [exact (proj1 P) | exact Hg | cbn in Hh; exact (proj2 Hh) | exact I | exact J].
Qed.

(* The levels of a fit: the depth must be odd and at least three, the sizes positive.  There is one level
   more than coarsenings, each the coarsening of the one before; node weights are positive and add up to
   the number of nodes at every level, so that every weight is within the embedding built for them; the
   edges weigh the same at every level. *)
Theorem C121_levels : forall score num_layers channels embed edges n symmetrize,
  match fit_levels score num_layers channels embed edges n symmetrize with
  | Err e => e = ValueError /\ (num_layers < 3 \/ Z.even num_layers = true \/ channels < 1 \/ embed < 1)%Z
  | Ok (ls, Ms, top) =>
      (3 <= num_layers /\ Z.odd num_layers = true /\ 1 <= channels /\ 1 <= embed)%Z /\
      Z.of_nat (length Ms) = ((num_layers - 1) / 2)%Z /\ length ls = S (length Ms) /\
      nth 0 ls ([], []) = (dense_adjacency edges n symmetrize, repeat 1%Z n) /\
      (forall k, k < length Ms ->
         let l := nth k ls ([], []) in
         (nth k Ms [], fst (nth (S k) ls ([], [])), snd (nth (S k) ls ([], []))) = coarsen score (fst l) (snd l)) /\
      (forall k, k <= length Ms ->
         let '(A, W) := nth k ls ([], []) in
         shape (length A) (length A) A /\ length W = length A /\ length A <= n /\
         sumZ W = Z.of_nat n /\ (forall x, In x W -> (1 <= x <= top)%Z) /\
         (total (length A) (entry A) == total n (entry (dense_adjacency edges n symmetrize)))%Q /\
         (symmetrize = true -> symmetric (length A) (entry A)))
  end.
Proof.
  intros score num_layers channels embed edges n symmetrize. unfold fit_levels.
  destruct ((num_layers <? 3)%Z || (num_layers mod 2 =? 0)%Z) eqn:E1.
  { split; [reflexivity |]. rewrite Zmod_even in E1. destruct (Z.even num_layers); [tauto | left; cbn in E1; lia]. }
  destruct (channels <? 1)%Z eqn:E2; [split; [reflexivity | right; right; left; lia] |].
  destruct (embed <? 1)%Z eqn:E3; [split; [reflexivity | right; right; right; lia] |].
  set (num := Z.to_nat ((num_layers - 1) / 2)). set (A0 := dense_adjacency edges n symmetrize). set (W0 := repeat 1%Z n).
  destruct (levels score num A0 W0) as [ls Ms] eqn:L.
  pose proof (levels_length score num A0 W0) as [LL LM]. rewrite L in LL, LM. cbn [fst snd] in LL, LM.
  assert (N3 : (3 <= num_layers)%Z) by lia.
  split. { split; [exact N3 |]. split; [| lia]. rewrite Zmod_even in E1. rewrite <- Z.negb_even. destruct (Z.even num_layers); [cbn in E1; lia | reflexivity]. }
  split. { rewrite LM. unfold num. rewrite Z2Nat.id; [reflexivity |]. apply Z.div_pos; lia. }
  split; [lia |].
  split. { pose proof (levels_head score num A0 W0 ([], [])) as H. rewrite L in H. exact H. }
  assert (STEP : forall k, k < length Ms -> let l := nth k ls ([], []) in
     (nth k Ms [], fst (nth (S k) ls ([], [])), snd (nth (S k) ls ([], []))) = coarsen score (fst l) (snd l)).
  { intros k Hk l. rewrite LM in Hk. pose proof (levels_step score num A0 W0 k ([], []) Hk) as H. rewrite L in H. cbn [fst snd] in H.
    fold l in H. destruct H as [H1 H2]. rewrite H1, H2. cbn [fst snd].
    destruct (coarsen score (fst l) (snd l)) as [[a b] c]. reflexivity. }
  split; [exact STEP |].
  assert (INV : forall k, k <= length Ms -> let '(A, W) := nth k ls ([], []) in
         shape (length A) (length A) A /\ length W = length A /\ length A <= n /\
         sumZ W = Z.of_nat n /\ (forall x, In x W -> (1 <= x)%Z) /\
         (total (length A) (entry A) == total n (entry A0))%Q /\
         (symmetrize = true -> symmetric (length A) (entry A))).
  { induction k as [|k IH]; intros Hk.
    - pose proof (levels_head score num A0 W0 ([], [])) as H. rewrite L in H. cbn [fst] in H. rewrite H.
      assert (LA : length A0 = n) by apply (proj1 (shape_tabulate n n _)).
      rewrite LA. split; [apply shape_tabulate |]. split; [apply repeat_length |]. split; [lia |].
      split. { unfold W0. clear. induction n as [|m IH]; [reflexivity |]. cbn [repeat sumZ]. lia. }
      split. { intros x I. apply repeat_spec in I. lia. }
      split; [reflexivity |]. intros E. unfold A0. rewrite E. apply dense_symmetric.
    - specialize (IH ltac:(lia)). specialize (STEP k ltac:(lia)). cbv zeta in STEP.
      destruct (nth k ls ([], [])) as [A W] eqn:EK. cbn [fst snd] in STEP.
      destruct IH as [SH [LW [LN [SW [POS [TOT SYM]]]]]].
      pose proof (C121_coarse score A W LW) as CO. cbv zeta in CO.
      pose proof (weights_positive score A W LW POS) as [WL WP].
      pose proof (coarse_count score A W) as CC.
      destruct (nth (S k) ls ([], [])) as [A' W'] eqn:ES. cbn [fst snd] in STEP.
      rewrite <- STEP in CO, WL, WP. cbn [fst snd] in WL, WP.
      destruct CO as [_ [SA [LW' [_ [_ [_ [TA [SS SY]]]]]]]].
      assert (LA : length A' = length (coarse_groups score A W)) by (destruct SA; assumption).
      rewrite LA. split; [exact SA |]. split; [exact LW' |]. split; [lia |]. split; [lia |]. split; [exact WP |].
      split; [rewrite TA; exact TOT | intros E; apply SY, SYM, E]. }
  intros k Hk. pose proof (INV k Hk) as H. destruct (nth k ls ([], [])) as [A W] eqn:EK.
  destruct H as [SH [LW [LN [SW [POS REST]]]]]. split; [exact SH |]. split; [exact LW |]. split; [exact LN |]. split; [exact SW |].
  split; [| exact REST]. intros x I. split; [exact (POS x I) |]. unfold max_weight.
  apply Z.le_trans with (fold_right Z.max 0%Z W); [apply fold_max_ge, I |].
  apply Z.le_trans with (fold_right Z.max 0%Z (map (fun l => fold_right Z.max 0%Z (snd l)) ls)); [| lia].
  apply fold_max_ge. apply in_map_iff. exists (A, W). split; [reflexivity |]. rewrite <- EK. apply nth_In. lia.
Qed.

(* a path 0-1-2-3 with a heavy middle, and two isolated nodes 4, 5 *)
Definition ex_score (a : Q) (v u : Z) : Q := (a / inject_Z (v * u))%Q.
Definition ex_edges : list (nat * nat * Q) := [(0, 1, 1%Q); (1, 2, 3%Q); (2, 3, 1%Q)].
Definition ex_adj : mat := dense_adjacency ex_edges 6 true.
Example C121_case :
  coarse_groups ex_score ex_adj (repeat 1%Z 6) = [[4; 5]; [0; 1]; [3; 2]] /\
  snd (coarsen ex_score ex_adj (repeat 1%Z 6)) = [2; 2; 2]%Z /\
  (let '(_, A, _) := coarsen ex_score ex_adj (repeat 1%Z 6) in
   Qeq (entry A 1 2) 3 /\ Qeq (entry A 1 1) 2 /\ Qeq (entry A 0 1) 0) /\
  length (repeat 1%Z 6) = length ex_adj.
Proof. vm_compute. repeat split; reflexivity. Qed.
Example C121_levels_case :
  match fit_levels ex_score 5 1 1 ex_edges 6 true with
  | Ok (ls, Ms, top) => map (fun l => snd l) ls = [[1; 1; 1; 1; 1; 1]; [2; 2; 2]; [2; 4]]%Z /\ length Ms = 2 /\ top = 4%Z
  | Err _ => False
  end /\ fit_levels ex_score 4 1 1 ex_edges 6 true = Err ValueError.
Proof. vm_compute. repeat split; reflexivity. Qed.

(* Two nodes may be merged although nothing joins them, at any distance: nodes without edges all have the
   same (empty) neighbourhood. *)
Theorem C121_unrelated_refuted : exists edges n a b g,
  In g (coarse_groups ex_score (dense_adjacency edges n true) (repeat 1%Z n)) /\ g = [a; b] /\
  (forall u, ~ adjacent n (entry (dense_adjacency edges n true)) a u) /\
  (forall u, ~ adjacent n (entry (dense_adjacency edges n true)) b u).
Proof.
  exists ex_edges, 6, 4, 5, [4; 5]. split; [vm_compute; left; reflexivity |]. split; [reflexivity |].
  split; intros u [L [_ NZ]]; apply NZ; do 6 (destruct u as [|u]; [reflexivity |]); lia.
Qed.
(* An edge of negative weight given in one direction only disappears when the graph is symmetrized. *)
Theorem C121_negative_refuted : exists edges n i j, i < n /\ j < n /\ i <> j /\
  ~ (weight_between edges i j == 0)%Q /\ (entry (dense_adjacency edges n true) i j == 0)%Q /\
  (entry (dense_adjacency edges n false) i j == weight_between edges i j)%Q.
Proof.
  exists [(0, 1, (-1)%Q)], 2, 0, 1. split; [lia |]. split; [lia |]. split; [lia |].
  split; [intros E; discriminate E |]. split; reflexivity.
Qed.
(* Prediction does not look at the graph it is given: the levels are those of the fit, so that two
   different graphs on the same number of nodes get the same answer, also where the network itself
   would tell their levels apart. *)
Theorem C121_graph_ignored_refuted : exists (net : list (mat * list Z) * list mat -> unit -> Q) fitted edges edges' n,
  predict unit Q net fitted n tt edges n = predict unit Q net fitted n tt edges' n /\
  fitted = levels ex_score 1 (dense_adjacency edges n true) (repeat 1%Z n) /\
  ~ (net fitted tt == net (levels ex_score 1 (dense_adjacency edges' n true) (repeat 1%Z n)) tt)%Q.
Proof.
  exists (fun l _ => entry (fst (nth 0 (fst l) ([], []))) 0 1),
    (levels ex_score 1 (dense_adjacency [(0, 1, 1%Q)] 2 true) (repeat 1%Z 2)), [(0, 1, 1%Q)], [(0, 1, 2%Q)], 2.
  split; [reflexivity |]. split; [reflexivity |]. intros E. vm_compute in E. discriminate E.
Qed.

Print Assumptions C121_dense. Print Assumptions C121_groups. Print Assumptions C121_coarse. Print Assumptions C121_features. Print Assumptions C121_levels. Print Assumptions C121_unrelated_refuted. Print Assumptions C121_negative_refuted. Print Assumptions C121_graph_ignored_refuted.
