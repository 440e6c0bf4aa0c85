(* C80-C82: mini-batches, batched prediction and graph inputs of the deep inductive methods. *)
From Coq Require Import Permutation QArith Lia ZifyBool ZifyNat.
From Verif Require Import Prelude DeepBatchModel DeepBatchSpec DeepBatchProofs.
Local Open Scope Z_scope.

(* C80: cut into [steps] batches, a table of n rows is used evenly: every batch is a proper batch of distinct rows and
   every row is used steps/k times or once more, k being the number of batches of one pass. *)
Theorem C80_even_use : forall (St : Type) (G : Gen St) n b k steps s,
  gen_ok G -> (0 < n)%nat -> 0 < b -> 0 <= steps -> just_enough (Z.of_nat n) b k ->
  exists bs s', cycle_batch_indices G n b steps s = Ok (bs, s') /\ lenZ bs = steps /\
    Forall (proper_batch n b) bs /\ even_use n k steps bs.
Proof.
  intros St G n b k steps s OK N B S0 K.
  destruct (cycle_spec G OK n b N B (Z.to_nat steps) s) as (bs & s' & E & L & F & U).
  exists bs, s'. split; [exact E|]. split; [unfold lenZ; lia|]. split; [exact F|].
  rewrite Z2Nat.id in U by lia.
  rewrite (just_enough_unique _ _ _ _ B K (num_batches_enough (Z.of_nat n) b ltac:(lia) B)). exact U.
Qed.

(* C80: a fit either refuses its arguments or runs max_epochs epochs of max(k_l, k_u) steps, and every epoch uses every
   labelled and every unlabelled row at least once. *)
Theorem C80_fit_uses_every_row : forall (St : Type) (G : Gen St) n_l n_u b max_epochs sl su,
  gen_ok G ->
  match fit_batches G n_l n_u b max_epochs sl su with
  | Ok epochs =>
      lenZ epochs = max_epochs /\
      exists k_l k_u, just_enough (Z.of_nat n_l) b k_l /\ just_enough (Z.of_nat n_u) b k_u /\
      forall e, In e epochs ->
        lenZ e = Z.max k_l k_u /\
        (forall step, In step e -> proper_batch n_l b (fst step) /\ proper_batch n_u b (snd step)) /\
        (forall i, (i < n_l)%nat -> 1 <= visits i (map fst e)) /\
        (forall i, (i < n_u)%nat -> 1 <= visits i (map snd e)) /\
        (k_l <= k_u -> forall i, (i < n_u)%nat -> visits i (map snd e) <= 2)
  | Err e => e = InductiveValidationError /\ (n_l = 0%nat \/ n_u = 0%nat \/ b <= 0 \/ max_epochs <= 0)
  end.
Proof.
  intros St G n_l n_u b me sl su OK. pose proof (fit_batches_spec G n_l n_u b me sl su OK) as H.
  destruct (fit_batches G n_l n_u b me sl su) as [epochs|e]; [|destruct H; split; [assumption|lia]].
  destruct H as (NL & NU & B & ME & LE & k_l & k_u & KL & KU & F). split; [exact LE|]. exists k_l, k_u.
  split; [exact KL|]. split; [exact KU|]. intros e I. rewrite Forall_forall in F. destruct (F e I) as (A1 & A2 & A3 & A4 & A5).
  assert (PL : 0 < k_l) by (unfold just_enough in KL; nia). assert (PU : 0 < k_u) by (unfold just_enough in KU; nia).
  assert (1 <= Z.max k_l k_u / k_l) by (apply Z.div_le_lower_bound; lia).
  assert (1 <= Z.max k_l k_u / k_u) by (apply Z.div_le_lower_bound; lia).
  split; [exact A1|]. split.
  { intros step IS. rewrite Forall_forall in A2, A4. split; [apply A2|apply A4]; now apply in_map. }
  split; [intros i Hi; specialize (A3 i Hi); lia|]. split; [intros i Hi; specialize (A5 i Hi); lia|].
  intros LKU i Hi. specialize (A5 i Hi). rewrite Z.max_r, Z.div_same in A5 by lia. lia.
Qed.

(* C80: rows travel with their own labels, and none is left out when the steps cover the table. *)
Theorem C80_rows_keep_their_labels : forall (St X : Type) (G : Gen St) (dx : X) xs ys b steps s,
  gen_ok G -> length xs = length ys -> xs <> [] -> 0 < b -> 0 <= steps ->
  exists out s', cycle_batches G dx xs ys b steps s = Ok (out, s') /\ lenZ out = steps /\
    (forall o, In o out -> length (fst o) = length (snd o) /\ fst o <> [] /\ lenZ (fst o) <= b /\
                           forall p, In p (pairs o) -> In p (combine xs ys)) /\
    (lenZ xs <= steps * b -> forall p, In p (combine xs ys) -> exists o, In o out /\ In p (pairs o)).
Proof. intros. now apply cycle_batches_spec. Qed.

Definition ex_gen : Gen nat := {| g_perm := fun s n => (rev (seq 0 n), S s) |}.
Example C80_satisfiable :
  gen_ok ex_gen /\
  cycle_batch_indices ex_gen 3 2 5 0%nat = Ok ([[2; 1]; [0]; [2; 1]; [0]; [2; 1]]%nat, 3%nat) /\
  fit_batches ex_gen 1 3 2 1 0%nat 0%nat = Ok [[([0], [2; 1]); ([0], [0])]]%nat /\
  cycle_batches ex_gen 0%nat [10; 20; 30]%nat [1; 2; 3] 2 2 0%nat = Ok ([([30; 20]%nat, [3; 2]); ([10%nat], [1])], 1%nat).
Proof. split; [intros s n; cbn; symmetry; apply Permutation_rev|]. repeat split. Qed.

(* C81: for a model that scores rows one by one, the probabilities do not depend on the batch size, and the model is left
   in the mode it was in. *)
Theorem C81_batch_size_is_immaterial_partial : forall (X R P : Type) (call : bool -> list X -> option (list R)) (softmax : R -> P) f training xs b,
  row_wise call f -> 0 < b ->
  predict_proba call softmax true training xs b = (Ok (map (fun x => softmax (f x)) xs), training).
Proof. intros. now apply predict_spec. Qed.

(* C81: whatever happens, the training mode is never switched on, and an unfitted method changes nothing. *)
Theorem C81_never_starts_training : forall (X R P : Type) (call : bool -> list X -> option (list R)) (softmax : R -> P) fitted training xs b r training',
  predict_proba call softmax fitted training xs b = (r, training') ->
  (training' = true -> training = true) /\ (fitted = false -> r = Err RuntimeError /\ training' = training) /\
  (forall p, r = Ok p -> training' = training).
Proof.
  intros X R P call softmax fitted training xs b r t'. unfold predict_proba.
  destruct fitted; cbn [negb].
  - destruct (py_range (lenZ xs) b) as [starts|]; [destruct (predict_loop call xs b starts) as [l|]|];
      intros H; injection H as <- <-; repeat split; intros; easy.
  - intros H; injection H as <- <-. repeat split; intros; easy.
Qed.

(* C81 (refuted): a prediction that fails leaves the model in evaluation mode, so a model that was training is not. *)
Theorem C81_mode_restored_refuted :
  ~ (forall (X R P : Type) (call : bool -> list X -> option (list R)) (softmax : R -> P) training xs b r training',
       predict_proba call softmax true training xs b = (r, training') -> training' = training).
Proof.
  intros H. specialize (H nat nat nat (fun _ _ => None) (fun x => x) true [1%nat] 1 _ _ eq_refl). discriminate H.
Qed.
Example C81_satisfiable :
  row_wise (fun (_ : bool) (l : list nat) => Some (map S l)) S /\
  predict_proba (fun (_ : bool) (l : list nat) => Some (map S l)) (fun x => x) true true [4; 5; 6]%nat 2 = (Ok [5; 6; 7]%nat, true).
Proof. split; [intros l; reflexivity|reflexivity]. Qed.

(* C82: slicing keeps the chosen nodes' features and exactly the edges between chosen nodes, in their order. *)
Theorem C82_slice_is_induced_partial : forall (X : Type) (dx : X) g idx,
  gweight g = None ->
  gx (slice_graph dx g idx) = map (fun i => nth i (gx g) dx) idx /\
  gweight (slice_graph dx g idx) = None /\
  map (fun e => (nth (fst e) idx 0%nat, nth (snd e) idx 0%nat)) (gedges (slice_graph dx g idx)) =
  filter (fun e => existsb (Nat.eqb (fst e)) idx && existsb (Nat.eqb (snd e)) idx) (gedges g) /\
  (NoDup idx -> forall a b, In (a, b) (gedges (slice_graph dx g idx)) <->
     exists i j, nth_error idx a = Some i /\ nth_error idx b = Some j /\ In (i, j) (gedges g)).
Proof.
  intros X dx g idx W. split; [reflexivity|]. split; [cbn; now rewrite W|]. split; [apply subgraph_back|].
  intros ND a b. now apply subgraph_In.
Qed.

(* C82 (refuted): the weights of the edges between chosen nodes are kept. *)
Definition ex_graph : graph nat := {| gx := [10; 20; 30]%nat; gedges := [(0, 1); (1, 2)]%nat; gweight := Some [5; 7]%Q |}.
Theorem C82_slice_keeps_weights_refuted :
  ~ (forall (X : Type) (dx : X) g idx a b w, graph_ok g -> NoDup idx -> (forall i, In i idx -> (i < length (gx g))%nat) ->
       weighted_edge (slice_graph dx g idx) a b w ->
       exists i j, nth_error idx a = Some i /\ nth_error idx b = Some j /\ weighted_edge g i j w).
Proof.
  intros H. destruct (H nat 0%nat ex_graph [1; 2]%nat 0%nat 1%nat 5%Q) as (i & j & Hi & Hj & k & E & W).
  - split; [intros a b [I|[I|[]]]; injection I as <- <-; cbn; lia|reflexivity].
  - repeat constructor; cbn; lia.
  - intros i [<-|[<-|[]]]; cbn; lia.
  - exists 0%nat. split; reflexivity.
  - cbn in Hi, Hj. injection Hi as <-. injection Hj as <-.
    destruct k as [|[|k]]; cbn in E, W; try discriminate E; [discriminate W|now destruct k].
Qed.

(* C82: joining graphs is the disjoint union, every edge keeping its weight, when all of them have weights or none has. *)
Theorem C82_concat_is_disjoint_union_partial : forall (X : Type) (gs : list (graph X)) a b w,
  Forall graph_ok gs -> all_weighted gs \/ none_weighted gs ->
  gx (concat_graphs gs) = flat_map gx gs /\
  (weighted_edge (concat_graphs gs) a b w <->
   exists pre g post a' b', gs = pre ++ g :: post /\ weighted_edge g a' b' w /\
     a = (a' + length (flat_map gx pre))%nat /\ b = (b' + length (flat_map gx pre))%nat).
Proof. intros X gs a b w F A. split; [reflexivity|]. now apply concat_spec. Qed.

(* C82 (refuted): the same without the condition on the weights.  An unweighted graph first, a weighted one second: the
   weight of the second graph's edge is read for the first graph's edge. *)
Theorem C82_concat_mixed_refuted :
  ~ (forall (X : Type) (gs : list (graph X)) a b w, Forall graph_ok gs -> weighted_edge (concat_graphs gs) a b w ->
       exists pre g post a' b', gs = pre ++ g :: post /\ weighted_edge g a' b' w /\
         a = (a' + length (flat_map gx pre))%nat /\ b = (b' + length (flat_map gx pre))%nat).
Proof.
  pose (g1 := {| gx := [1]%nat; gedges := [(0, 0)]%nat; gweight := None |}).
  pose (g2 := {| gx := [2]%nat; gedges := [(0, 0)]%nat; gweight := Some [3]%Q |}).
  intros H. destruct (H nat [g1; g2] 0%nat 0%nat 3%Q) as (pre & g & post & a' & b' & E & (k & K & W) & A & B).
  - constructor; [|constructor; [|constructor]]; (split; [intros a b [I|[]]; injection I as <- <-; cbn; lia|easy]).
  - exists 0%nat. split; reflexivity.
  - destruct pre as [|p pre].
    + cbn in E. injection E as <- <-. cbn in W. discriminate W.
    + cbn in E. injection E as <- E. cbn in A. lia.
Qed.

(* C82: a graph that fits in one batch is scored as it is, edges and weights included. *)
Theorem C82_predict_whole_graph_partial : forall (X R P : Type) (call : graph X -> list R) (softmax : R -> P) dx g b,
  graph_ok g -> gx g <> [] -> lenZ (gx g) <= b -> predict_graph call softmax dx g b = Ok (map softmax (call g)).
Proof. intros. now apply predict_graph_whole. Qed.

(* C82 (refuted): the probabilities of a graph's nodes do not depend on the batch size.  A model that counts in-edges. *)
Theorem C82_predict_batch_size_refuted :
  ~ (forall (X R P : Type) (call : graph X -> list R) (softmax : R -> P) dx g b b', graph_ok g -> 0 < b -> 0 < b' ->
       predict_graph call softmax dx g b = predict_graph call softmax dx g b').
Proof.
  intros H.
  specialize (H nat nat nat (fun g => map (fun i => length (filter (fun e => Nat.eqb (snd e) i) (gedges g))) (seq 0 (length (gx g))))
                (fun x => x) 0%nat ex_graph 1 3).
  assert (graph_ok ex_graph) as GO by (split; [intros a b [I|[I|[]]]; injection I as <- <-; cbn; lia|reflexivity]).
  specialize (H GO ltac:(lia) ltac:(lia)). vm_compute in H. discriminate H.
Qed.
Example C82_satisfiable :
  graph_ok ex_graph /\ all_weighted [ex_graph; ex_graph] /\
  gedges (concat_graphs [ex_graph; ex_graph]) = [(0, 1); (1, 2); (3, 4); (4, 5)]%nat /\
  gedges (slice_graph 0%nat ex_graph [2; 1]%nat) = [(1, 0)]%nat /\
  predict_graph (fun g => map (fun i => length (filter (fun e => Nat.eqb (snd e) i) (gedges g))) (seq 0 (length (gx g))))
    (fun x => x) 0%nat ex_graph 3 = Ok [0; 1; 1]%nat.
Proof.
  split; [split; [intros a b [I|[I|[]]]; injection I as <- <-; cbn; lia|reflexivity]|].
  split; [repeat constructor; cbn; discriminate|]. repeat split.
Qed.

Print Assumptions C80_even_use.
Print Assumptions C80_fit_uses_every_row.
Print Assumptions C80_rows_keep_their_labels.
Print Assumptions C81_batch_size_is_immaterial_partial.
Print Assumptions C81_never_starts_training.
Print Assumptions C81_mode_restored_refuted.
Print Assumptions C82_slice_is_induced_partial.
Print Assumptions C82_slice_keeps_weights_refuted.
Print Assumptions C82_concat_is_disjoint_union_partial.
Print Assumptions C82_concat_mixed_refuted.
Print Assumptions C82_predict_whole_graph_partial.
Print Assumptions C82_predict_batch_size_refuted.
