(* C59-C63: tri-training, the wrappers' predictions, Setred, democratic co-learning, S4VM. *)
From Coq Require Import List ZArith Lia Bool QArith Qminmax Permutation Sorted Lqa.
From Verif Require Import Prelude ListFacts QFacts SamplingSpec InductModel InductSpec InductProofs InductLoopProofs InductSelfProofs InductCoProofs InductFitProofs InductProps
  EnsembleModel EnsembleSpec TriProofs ProbaProofs SetredProofs SetredGraphProofs DemoModel DemoSpec DemoProofs S4vmProofs.
Import ListNotations.
Open Scope Z_scope.

(* ----- C59: tri-training ----- *)

(* The labels given are columns of the score matrices: the property says classes, so this is the whole
   property only when the classes are 0 .. K-1. *)
Theorem C59_tri_training_partial {X M} (d : X) (fit : nat -> nat -> list X -> list Z -> M) scores argsort choice
    max_iter ratio thr max_new Xl yl Xu :
  (forall m rs, length (scores m rs) = length rs) -> (forall m rs r, In r (scores m rs) -> r <> []) ->
  sorts_positions argsort -> (forall m, max_new = Some m -> 0 <= m) -> Xl <> [] ->
  exists r n rs,
    tri_fit d fit scores argsort choice max_iter ratio thr max_new Xl yl Xu = Ok r /\
    nearest_even (ratio * inject_Z (Z.of_nat (length Xl)))%Q n /\
    tri_history d Xl yl Xu (fun i => choice i (Z.to_nat (Z.max 1 n))) rs (Z.to_nat max_iter) (tri_calls r) /\
    (forall k, (k < length rs)%nat -> tri_round fit scores Xu thr max_new rs (tri_calls r) k (nth k rs (fun _ => []))) /\
    tri_stop fit scores Xu thr max_new rs (Z.to_nat max_iter) (tri_calls r).
Proof.
  intros A B C D E. unfold tri_fit. destruct Xl as [|x xs] eqn:EX; [congruence|]. rewrite <- EX in *. clear EX.
  destruct (tri_loop_history d fit scores argsort Xl yl Xu (fun i => choice i (Z.to_nat (Z.max 1 (round_even (ratio * inject_Z (lenZ Xl))%Q))))
    thr max_new A B C D (Z.to_nat max_iter)) as (rs & H).
  eexists. exists (round_even (ratio * inject_Z (lenZ Xl))%Q), rs. split; [reflexivity|]. split; [apply round_even_nearest|]. exact H.
Qed.

Definition ex_tri_fit (i _ : nat) (X : list Z) (y : list Z) : Z := lenZ X + Z.of_nat i.
(* every learner receives the rows the two others agree on; labels 3 and 5 *)
Definition ex_tri := tri_fit 0 ex_tri_fit ex_sc ref_argsortQ (fun _ n => seq 0 n) 2 1%Q (Some (3#4)%Q) (Some 2) [-5; 5] [3; 5] [1; -4; 6].

Example C59_run : exists r, ex_tri = Ok r /\
  tri_calls r 0%nat = [([-5; 5], [3; 5]); ([-5; 5; -4; 6], [3; 5; 0; 1]); ([-5; 5; 1; -4; 6], [3; 5; 1; 0; 1])].
Proof.
  assert (C : (match ex_tri with Ok r => tri_calls r 0%nat | Err _ => [] end) =
     [([-5; 5], [3; 5]); ([-5; 5; -4; 6], [3; 5; 0; 1]); ([-5; 5; 1; -4; 6], [3; 5; 1; 0; 1])]) by (vm_compute; reflexivity).
  destruct ex_tri as [r|e]; [|discriminate]. exists r. split; [reflexivity|exact C].
Qed.

(* With labels {3, 5} the learners are retrained on rows labelled 0 and 1. *)
Theorem C59_pseudo_labels_refuted : exists (Xl yl Xu : list Z) r,
  tri_fit 0 ex_tri_fit ex_sc ref_argsortQ (fun _ n => seq 0 n) 2 1%Q (Some (3#4)%Q) (Some 2) Xl yl Xu = Ok r /\
  exists Xt yt l, In (Xt, yt) (tri_calls r 0%nat) /\ In l yt /\ ~ In l yl.
Proof.
  exists [-5; 5], [3; 5], [1; -4; 6]. destruct C59_run as (r & E & C). exists r. split; [exact E|].
  exists [-5; 5; -4; 6], [3; 5; 0; 1], 0. rewrite C. split; [right; left; reflexivity|]. split; [right; right; left; reflexivity|].
  intros [H|[H|[]]]; discriminate.
Qed.

(* ----- C60: predict_proba and predict ----- *)

(* one classifier: each row is a distribution proportional to its scores *)
Theorem C60_single_proba_partial n cs rows : score_table n cs rows -> (forall r, In r rows -> exists x, In x r /\ (0 < x)%Q) ->
  Forall2 distribution_of rows (single_proba rows).
Proof.
  intros (_ & _ & H) P. unfold single_proba. apply Forall2_map_r. intros r Hr. apply normalise_distribution; [apply (H r Hr)|].
  destruct (P r Hr) as (x & Hx & Px). pose proof (proj2 (H r Hr)) as NN. clear - NN Hx Px. revert NN Hx.
  induction r as [|y r IH]; intros NN Hx; [destruct Hx|]. unfold total in *. cbn [fold_right].
  assert (Y : (0 <= y)%Q) by (apply NN; now left). assert (T : (0 <= total r)%Q) by (apply Qsum_nonneg; intros z Hz; apply NN; now right).
  unfold total in T. destruct Hx as [->|Hx]; [lra|]. specialize (IH (fun z Hz => NN z (or_intror Hz)) Hx). lra.
Qed.

(* Tri-training: the columns are the classes known to some learner, in increasing order, and each row
   is a distribution proportional to the sums of the learners' scores, a learner giving 0 to a class
   it does not know. *)
Theorem C60_tri_proba_partial n clfs :
  clfs <> [] -> (forall s, In s clfs -> exists cs, sc_classes s = Some cs /\ sc_cols s = length cs /\ score_table n cs (sc_rows s)) ->
  (forall i, (i < n)%nat -> exists s x, In s clfs /\ In x (nth i (sc_rows s) []) /\ (0 < x)%Q) ->
  exists P cs, tri_proba n clfs = Ok P /\ length P = n /\ StronglySorted Z.lt cs /\
    (forall c, In c cs <-> exists s cs', In s clfs /\ sc_classes s = Some cs' /\ In c cs') /\
    forall i, (i < n)%nat -> exists sums, length sums = length cs /\ distribution_of sums (nth i P []) /\
      forall g, (g < length cs)%nat -> exists qs, nth g sums 0%Q = total qs /\
        Forall2 (fun s q => exists cs', sc_classes s = Some cs' /\ score_for cs' (nth i (sc_rows s) []) (nth g cs 0) q) clfs qs.
Proof.
  intros NE G Pos.
  assert (GC : forall s, In s clfs -> good_clf n s).
  { intros s Hs. destruct (G s Hs) as (cs & E & C & S & L & R). exists cs. split; [exact E|]. split; [exact S|]. split; [congruence|]. split; [exact L|].
    intros r Hr. rewrite C. now apply R. }
  destruct (tri_proba_spec n clfs NE GC Pos) as (P & cs & E & LP & S & Inn & H). exists P, cs. split; [exact E|]. split; [exact LP|]. split; [exact S|].
  assert (CO : forall s, In s clfs -> sc_classes s = Some (classes_of s)).
  { intros s Hs. destruct (G s Hs) as (c & Ec & _). unfold classes_of. now rewrite Ec. }
  split.
  - intros c. rewrite Inn. split.
    + intros (s & Hs & Hc). exists s, (classes_of s). auto.
    + intros (s & cs' & Hs & Ec & Hc). exists s. split; [exact Hs|]. rewrite (CO s Hs) in Ec. injection Ec as ->. exact Hc.
  - intros i Hi. destruct (H i Hi) as (sums & L & _ & D & Q). exists sums. split; [exact L|]. split; [exact D|].
    intros g Hg. destruct (Q g Hg) as (qs & Eq & F). exists qs. split; [exact Eq|]. clear - F CO.
    induction F as [|x y l l' Hx F IH]; constructor.
    + exists (classes_of x). split; [apply CO; now left|exact Hx].
    + apply IH. intros s Hs. apply CO. now right.
Qed.

(* Predict returns the class with the largest sum, if the learners know the same classes. *)
Theorem C60_tri_predict_partial n clfs cs :
  clfs <> [] -> (forall s, In s clfs -> sc_classes s = Some cs /\ sc_cols s = length cs /\ score_table n cs (sc_rows s)) ->
  (forall i, (i < n)%nat -> exists s x, In s clfs /\ In x (nth i (sc_rows s) []) /\ (0 < x)%Q) ->
  exists Y, tri_predict n clfs = Ok Y /\ length Y = n /\
    forall i, (i < n)%nat -> exists sums g, predicts sums g /\ length sums = length cs /\ nth i Y 0 = nth g cs 0 /\
      forall g', (g' < length cs)%nat -> exists qs, nth g' sums 0%Q = total qs /\
        Forall2 (fun s q => score_for cs (nth i (sc_rows s) []) (nth g' cs 0) q) clfs qs.
Proof.
  intros NE G Pos. apply tri_predict_spec; [exact NE| |exact Pos]. intros s Hs. destruct (G s Hs) as (E & C & S & L & R).
  split; [|exact E]. exists cs. split; [exact E|]. split; [exact S|]. split; [congruence|]. split; [exact L|]. intros r Hr. rewrite C. now apply R.
Qed.

Theorem C60_co_predict_partial n s1 s2 cs :
  (forall s, In s [s1; s2] -> sc_classes s = Some cs /\ sc_cols s = length cs /\ score_table n cs (sc_rows s)) ->
  (forall i, (i < n)%nat -> exists s x, In s [s1; s2] /\ In x (nth i (sc_rows s) []) /\ (0 < x)%Q) ->
  exists P Y, co_proba n s1 s2 = Ok P /\ co_predict n s1 s2 = Ok Y /\ length P = n /\ length Y = n /\
    forall i, (i < n)%nat -> exists sums, length sums = length cs /\ distribution_of sums (nth i P []) /\
      (exists g, predicts sums g /\ nth i Y 0 = nth g cs 0) /\
      forall g, (g < length cs)%nat -> (nth g sums 0 == nth g (nth i (sc_rows s1) []) 0 + nth g (nth i (sc_rows s2) []) 0)%Q.
Proof.
  intros G Pos.
  assert (GC : forall s, In s [s1; s2] -> good_clf n s).
  { intros s Hs. destruct (G s Hs) as (E & C & S & L & R). exists cs. split; [exact E|]. split; [exact S|]. split; [congruence|]. split; [exact L|]. intros r Hr. rewrite C. now apply R. }
  assert (I1 : In s1 [s1; s2]) by (now left). assert (I2 : In s2 [s1; s2]) by (right; now left).
  destruct (G s1 I1) as (E1 & _). destruct (G s2 I2) as (E2 & _).
  destruct (co_proba_spec n s1 s2 cs (GC _ I1) (GC _ I2) E1 E2 Pos) as (P & EP & LP & HP).
  destruct (co_predict_spec n s1 s2 cs (GC _ I1) (GC _ I2) E1 E2 Pos) as (Y & EY & LY & HY).
  exists P, Y. split; [exact EP|]. split; [exact EY|]. split; [exact LP|]. split; [exact LY|]. intros i Hi.
  destruct (HP i Hi) as (sums & L & _ & D & Q). destruct (HY i Hi) as (sums' & g & Pr & L' & Yg & Q').
  exists sums. split; [exact L|]. split; [exact D|]. split; [|exact Q]. exists g. split; [|exact Yg].
  apply (predicts_scale sums' sums 1%Q); [lra|congruence| |exact Pr]. intros c.
  destruct (Nat.lt_ge_cases c (length cs)) as [Hc|Hc].
  - rewrite (Q c Hc), (Q' c Hc). ring.
  - rewrite !nth_overflow by lia. reflexivity.
Qed.

(* Signed scores (decision_function): the row sum can be negative and the class with the LOWEST score
   comes out first. *)
Theorem C60_signed_scores_refuted : exists r, r = [-3; -1; 0]%Q /\ predicts r 2 /\ predicts (normalise_row r) 0.
Proof.
  exists [-3; -1; 0]%Q. split; [reflexivity|]. split.
  - apply argmax_iff; [discriminate|]. vm_compute. reflexivity.
  - apply argmax_iff; [discriminate|]. vm_compute. reflexivity.
Qed.
Theorem C60_negative_sum_reverses r c : (total r < 0)%Q -> predicts (normalise_row r) c ->
  forall j, (j < length r)%nat -> (nth c r 0 <= nth j r 0)%Q.
Proof. apply normalise_negative. Qed.
(* Binary decision scores [-s, s] sum to 0 and are returned as they are. *)
Theorem C60_binary_decision_refuted : exists r, In r (single_proba [[-2; 2]])%Q /\ In (-2)%Q r.
Proof. exists [-2; 2]%Q. split; [left; reflexivity|now left]. Qed.

(* Tri-training predict with learners of different classes: the column index of the union is looked up
   in the classes of the first learner. *)
Definition ex_clf (cs : list Z) (rows : list (list Q)) : scored := {| sc_classes := Some cs; sc_cols := length cs; sc_rows := rows |}.
Theorem C60_tri_predict_refuted : exists clfs,
  (forall s, In s clfs -> exists cs, sc_classes s = Some cs /\ sc_cols s = length cs /\ score_table 1 cs (sc_rows s)) /\
  (exists P, tri_proba 1 clfs = Ok P /\ Forall2 (Forall2 Qeq) P [[0; 1; 0]]%Q) /\   (* all mass on class 2 of {1, 2, 3} *)
  tri_predict 1 clfs = Ok [3] /\                               (* but class 3 is returned *)
  exists clfs', tri_predict 1 clfs' = Err IndexError.
Proof.
  exists [ex_clf [1; 3] [[0; 0]]%Q; ex_clf [1; 2] [[0; 1]]%Q; ex_clf [2; 3] [[1; 0]]%Q]. split.
  - intros s Hs. cbn [In] in Hs.
    destruct Hs as [<-|[<-|[<-|[]]]]; eexists; (split; [reflexivity|]; split; [reflexivity|]; split; [repeat constructor|]; split; [reflexivity|];
      intros r [<-|[]]; split; [reflexivity|]; intros x [<-|[<-|[]]]; unfold Qle; cbn; lia).
  - split; [eexists; split; [vm_compute; reflexivity|]; repeat constructor|]. split; [vm_compute; reflexivity|].
    exists [ex_clf [1; 3] [[0; 0]]%Q; ex_clf [1; 2] [[0; 0]]%Q; ex_clf [2; 3] [[0; 1]]%Q]. vm_compute. reflexivity.
Qed.

Definition ex_clfs := [ex_clf [4; 7] [[3; 1]; [1; 1]]%Q; ex_clf [4; 7] [[1; 1]; [0; 1]]%Q; ex_clf [4; 7] [[1; 1]; [2; 1]]%Q].
Example C60_run : exists P, tri_proba 2 ex_clfs = Ok P /\
  Forall2 (Forall2 Qeq) P [[5 # 8; 3 # 8]; [1 # 2; 1 # 2]]%Q.
Proof. eexists. split; [vm_compute; reflexivity|]. repeat constructor. Qed.
Example C60_hypotheses_met :
  (forall s, In s ex_clfs -> sc_classes s = Some [4; 7] /\ sc_cols s = length [4; 7] /\ score_table 2 [4; 7] (sc_rows s)) /\
  (forall i, (i < 2)%nat -> exists s x, In s ex_clfs /\ In x (nth i (sc_rows s) []) /\ (0 < x)%Q) /\
  tri_predict 2 ex_clfs = Ok [4; 4].
Proof.
  split; [|split; [|vm_compute; reflexivity]].
  - intros s [<-|[<-|[<-|[]]]]; (split; [reflexivity|]; split; [reflexivity|]; split; [repeat constructor|]; split; [reflexivity|];
      intros r [<-|[<-|[]]]; split; try reflexivity; intros x [<-|[<-|[]]]; unfold Qle; cbn; lia).
  - intros i Hi. exists (ex_clf [4; 7] [[3; 1]; [1; 1]]%Q). destruct i as [|[|]]; [exists 3%Q|exists 1%Q|lia];
      (split; [now left|]; split; [now left|reflexivity]).
Qed.

(* ----- C61: Setred ----- *)
Theorem C61_setred_history {X M} (d : X) (fit : nat -> list X -> list Z -> M) scores predict argsort choice edit
    max_iter pool_size max_new min_new thr Xl yl Xu :
  (forall m Z, length (scores m Z) = length Z) -> (forall m Z r, In r (scores m Z) -> r <> []) ->
  (forall m Z, length (predict m Z) = length Z) -> sorts_positions argsort ->
  (forall r n s, (s <= n)%nat -> length (choice r n s) = s /\ NoDup (choice r n s) /\ forall i, In i (choice r n s) -> (i < n)%nat) ->
  (forall Z y n, length (edit Z y n) = (length Z - n)%nat) ->
  yl <> [] -> Xl <> [] -> Xu <> [] -> 0 <= min_new ->
  exists r bs, setred_fit d fit scores predict argsort choice edit max_iter pool_size max_new min_new thr Xl yl Xu = Ok r /\
    setred_history d Xl yl Xu bs (Z.to_nat max_iter) (calls r) (leftover r) /\
    (forall k, (k < length bs)%nat -> exists sel,
       setred_round d fit scores predict edit Xl yl Xu bs pool_size max_new thr k sel (nth k bs []) /\
       sel <> [] /\ min_new <= Z.of_nat (length (nth k bs []))) /\
    setred_stop d fit scores predict edit Xl yl Xu bs (Z.to_nat max_iter) pool_size max_new min_new thr.
Proof.
  intros A B C D E F Y NX NU Hm.
  assert (exists r, setred_fit d fit scores predict argsort choice edit max_iter pool_size max_new min_new thr Xl yl Xu = Ok r) as (r & R).
  { unfold setred_fit. destruct (Z.ltb_spec min_new 0); [lia|]. destruct Xu; [congruence|]. destruct Xl; [congruence|]. eauto. }
  exists r. destruct (setred_fit_spec d fit scores predict argsort choice edit Xl yl Xu A B C D E F Y pool_size max_new min_new thr max_iter r R NU) as (bs & H1 & H2 & H3).
  exists bs. split; [exact R|]. split; [exact H1|]. split; [exact H2|exact H3].
Qed.

(* the filter: candidate i is kept iff it passes the cut-edge test on its neighbours *)
Theorem C61_setred_filter {X} (dist : list X -> list (list Q)) graph mode eps z Xa ya n p :
  (forall Z, length (dist Z) = length Z) -> length ya = length Xa -> (0 < n)%nat -> (p < length Xa - n)%nat ->
  length (setred_edit dist graph mode eps z Xa ya n) = (length Xa - n)%nat /\
  (nth p (setred_edit dist graph mode eps z Xa ya n) false = true <->
   passes_cut_edge_test (neighbours_of (graph (dist Xa)) (n + p)) (fun j => edge_weight mode eps (entry (dist Xa) (n + p) j)) ya (n + p)
     (inject_Z (Z.of_nat (count_occ Z.eq_dec (firstn n ya) (nth (n + p) ya 0%Z))) / inject_Z (Z.of_nat n)) z).
Proof.
  intros L Ly Hn Hp. unfold setred_edit, setred_filter. rewrite L, map_length, seq_length. split; [reflexivity|].
  set (f := fun i => setred_keep _ _ _ _ _ _ _ i). rewrite (nth_indep _ false (f 0%nat)) by (rewrite map_length, seq_length; exact Hp).
  rewrite (map_nth f), seq_nth by exact Hp. unfold f.
  assert (CO : forall l ys, countZ l ys = Z.of_nat (count_occ Z.eq_dec ys l)).
  { reflexivity. }
  rewrite setred_keep_spec.
  - rewrite CO. reflexivity.
  - apply neighbours_NoDup.
  - rewrite CO. set (c := count_occ Z.eq_dec _ _).
    assert (Hc : (c <= n)%nat).
    { unfold c. etransitivity; [apply count_occ_bound|]. rewrite firstn_length. lia. }
    assert (N0 : (0 < inject_Z (Z.of_nat n))%Q) by (change 0%Q with (inject_Z 0); rewrite <- Zlt_Qlt; lia).
    split.
    + apply Qle_shift_div_l; [exact N0|]. rewrite Qmult_0_l. change 0%Q with (inject_Z 0). rewrite <- Zle_Qle. lia.
    + apply Qle_shift_div_r; [exact N0|]. rewrite Qmult_1_l. rewrite <- Zle_Qle. lia.
Qed.

(* the weight of an edge: one, its length, or the inverse of its length plus epsilon *)
Theorem C61_edge_weights eps d : (0 < eps)%Q -> (0 <= d)%Q ->
  (edge_weight Uniform eps d == 1)%Q /\ (edge_weight Distance eps d == d)%Q /\
  (edge_weight InverseDistance eps d * (d + eps) == 1)%Q.
Proof.
  intros E D. split; [reflexivity|]. split; [reflexivity|]. cbn. field. intros Z. 
  assert (0 < d + eps)%Q by lra. rewrite Z in H. discriminate.
Qed.

Example C61_edge_weights_satisfiable : (0 < 1 # 100)%Q /\ (0 <= 3)%Q /\ (edge_weight InverseDistance (1 # 100) 3 == 100 # 301)%Q.
Proof. repeat split; vm_compute; congruence. Qed.

Theorem C61_rng_graph dist : (forall i j, (entry dist i j == entry dist j i)%Q) -> forall i j,
  In j (neighbours_of (rng_edges dist) i) <-> relative_neighbours (entry dist) (length dist) i j.
Proof. apply rng_neighbours. Qed.

Theorem C61_knn_graph_partial argsort dist k : sorts_positions argsort -> 1 <= k ->
  (forall i, (i < length dist)%nat -> length (nth i dist []) = length dist) ->
  (forall i j, (i < length dist)%nat -> (j < length dist)%nat -> j <> i -> (entry dist i i < entry dist i j)%Q) ->
  exists near, (forall i, (i < length dist)%nat -> nearest_points (entry dist) (length dist) (Z.to_nat k) i (near i)) /\
    forall i j, In j (neighbours_of (knn_edges argsort dist k) i) <->
      (i < length dist)%nat /\ (j < length dist)%nat /\ (In j (near i) \/ In i (near j)).
Proof. apply knn_neighbours. Qed.

(* With two identical points, a point can become its own neighbour and miss its twin. *)
Theorem C61_knn_graph_refuted : exists dist,
  dist = [[0; 0; 1]; [0; 0; 1]; [1; 1; 0]]%Q /\ In 1%nat (neighbours_of (knn_edges ref_argsortQ dist 1) 1).
Proof. exists [[0; 0; 1]; [0; 0; 1]; [1; 1; 0]]%Q. split; [reflexivity|]. vm_compute. auto. Qed.

(* rows on a line *)
Definition ex_dist (Z : list Z) : list (list Q) := map (fun a => map (fun b => inject_Z (Z.abs (a - b))) Z) Z.
Definition ex_edit := setred_edit ex_dist rng_edges Uniform (1 # 100) (-1).
Example C61_edit_contract : forall Z y n, length (ex_edit Z y n) = (length Z - n)%nat.
Proof. intros. unfold ex_edit, setred_edit, setred_filter. rewrite map_length, seq_length. unfold ex_dist. now rewrite map_length. Qed.
Example C61_choice_contract : forall r n s : nat, (s <= n)%nat ->
  length ((fun _ _ s => seq 0 s) r n s) = s /\ NoDup ((fun _ _ s => seq 0 s) r n s) /\ forall i, In i ((fun _ _ s => seq 0 s) r n s) -> (i < n)%nat.
Proof. intros r n s H. split; [apply seq_length|]. split; [apply seq_NoDup|]. intros i Hi. apply in_seq in Hi. lia. Qed.
(* four rows proposed, the ones whose neighbours have another label are refused *)
Example C61_run : exists r, setred_fit 0 ex_fit ex_sc ex_pred ref_argsortQ (fun _ _ s => seq 0 s) ex_edit 1 None None 0 None
    [-5; 5; -6; 6] [7; 8; 7; 8] [-1; 1; -7; 7] = Ok r /\
  calls r = [([-5; 5; -6; 6], [7; 8; 7; 8]); ([-5; 5; -6; 6; -7; 7], [7; 8; 7; 8; 7; 8]); ([-5; 5; -6; 6; -7; 7], [7; 8; 7; 8; 7; 8])] /\
  leftover r = [-1; 1].
Proof. eexists. split; [vm_compute; reflexivity|]. split; vm_compute; reflexivity. Qed.

(* ----- C62: democratic co-learning ----- *)
Theorem C62_democratic_history {X M} (d : X) L (fit : nat -> nat -> list X -> list Z -> M) predict classes_ lower middle max_iter Xl yl Xu :
  (forall i k Xt yt, classes_ (fit i k Xt yt) = Some (uniqueZ yt)) ->
  (forall m Z, length (predict m Z) = length Z) ->
  (forall i k Xt yt Z l, yt <> [] -> In l (predict (fit i k Xt yt) Z) -> In l yt) ->
  (forall a b, (0 <= lower a b <= 1)%Q) -> yl <> [] -> (3 <= L)%nat -> Xl <> [] -> Xu <> [] ->
  exists fits rs, demo_fit d L fit predict classes_ lower middle max_iter Xl yl Xu = Ok fits /\
    demo_history d L fit predict lower middle Xl yl Xu rs (Z.to_nat max_iter) fits.
Proof.
  intros A B C D Y HL NX NU. apply (demo_fit_spec d L fit predict classes_ lower middle Xl yl Xu A B C D ltac:(lia) Y); auto.
Qed.

Theorem C62_combined_prediction cs weights mc n preds :
  NoDup cs -> cs <> [] -> length preds = length weights ->
  (forall p, In p preds -> length p = n /\ forall l, In l p -> In l cs) -> (forall w, In w weights -> (0 <= w)%Q) ->
  (exists P, demo_proba cs weights mc n preds = Ok P /\ length P = n /\
     forall r, (r < n)%nat -> exists s, length s = length cs /\
       (forall g, (g < length cs)%nat -> class_score weights mc preds r (nth g cs 0) (nth g s 0%Q)) /\
       ((0 < total s)%Q /\ distribution_of s (nth r P []) \/ (forall g, (nth g s 0 == 0)%Q) /\ nth r P [] = s)) /\
  exists Y, demo_predict cs weights mc n preds = Ok Y /\ length Y = n /\
    forall r, (r < n)%nat -> exists s g, length s = length cs /\
      (forall g, (g < length cs)%nat -> class_score weights mc preds r (nth g cs 0) (nth g s 0%Q)) /\
      predicts s g /\ nth r Y 0 = nth g cs 0.
Proof. intros A B C D E. split; [now apply demo_proba_spec|now apply demo_predict_spec]. Qed.

Theorem C62_unanimous_prediction_partial cs weights mc n preds r c :
  NoDup cs -> cs <> [] -> length preds = length weights ->
  (forall p, In p preds -> length p = n /\ forall l, In l p -> In l cs) -> (forall w, In w weights -> (0 <= w)%Q) ->
  (r < n)%nat -> (forall i, considered weights mc i -> nth r (nth i preds []) 0 = c) ->
  (exists i, considered weights mc i /\ (0 < nth i weights 0)%Q) ->
  exists Y, demo_predict cs weights mc n preds = Ok Y /\ nth r Y 0 = c.
Proof. intros A B C D E. now apply demo_unanimous. Qed.

(* Learners that are all wrong on the labelled rows have weight 0: their unanimous prediction 5 is
   replaced by the first class. *)
Theorem C62_unanimous_prediction_refuted : exists weights preds,
  (forall p, In p preds -> p = [5]) /\ length preds = 3%nat /\
  demo_predict [3; 5] weights (1#2) 1 preds = Ok [3].
Proof.
  exists [0; 0; 0]%Q, [[5]; [5]; [5]]. split; [intros p [<-|[<-|[<-|[]]]]; reflexivity|]. split; [reflexivity|]. vm_compute. reflexivity.
Qed.

(* Three learners: a constant one and two nearest-neighbour ones. *)
Definition ex_demo_nearest (x : Z) (X y : list Z) : Z :=
  snd (fold_left (fun best p => if Z.abs (fst p - x) <? fst best then (Z.abs (fst p - x), snd p) else best) (combine X y) (1000, hd 0 y)).
Definition ex_demo_predict (m : nat * (list Z * list Z)) (Zs : list Z) : list Z :=
  map (fun x => if Nat.eqb (fst m) 0 then hd 0 (snd (snd m)) else ex_demo_nearest x (fst (snd m)) (snd (snd m))) Zs.
Definition ex_demo_lower (_ _ : list Z) : Q := 9 # 10.
Definition ex_demo_middle (y p : list Z) : Q := ratio (hits y p) (lenZ y).
Example C62_contracts_met :
  (forall m Zs, length (ex_demo_predict m Zs) = length Zs) /\
  (forall (i k : nat) (Xt yt : list Z) Zs l, yt <> [] -> In l (ex_demo_predict (i, (Xt, yt)) Zs) -> In l yt) /\
  (forall a b, (0 <= ex_demo_lower a b <= 1)%Q).
Proof.
  split; [intros; apply map_length|]. split; [|intros a b; unfold ex_demo_lower; lra].
  intros i k Xt yt Zs l NE H. unfold ex_demo_predict in H. cbn [fst snd] in H. apply in_map_iff in H. destruct H as (x & <- & _).
  assert (H0 : In (hd 0 yt) yt) by (destruct yt; [congruence|now left]).
  destruct (Nat.eqb i 0); [exact H0|]. unfold ex_demo_nearest.
  assert (G : forall ps best, In (snd best) yt -> (forall p, In p ps -> In (snd p) yt) ->
     In (snd (fold_left (fun best (p : Z * Z) => if Z.abs (fst p - x) <? fst best then (Z.abs (fst p - x), snd p) else best) ps best)) yt).
  { induction ps as [|p ps IH]; intros best Hb Hp; cbn [fold_left]; [exact Hb|]. apply IH; [|intros q Hq; apply Hp; now right].
    destruct (_ <? _); [cbn; apply Hp; now left|exact Hb]. }
  apply G; [exact H0|]. intros [u v] Hp. apply in_combine_r in Hp. exact Hp.
Qed.
(* the constant learner is outvoted on the rows near 8 and receives them *)
Example C62_run : demo_fit 0 3 (fun i _ X y => (i, (X, y))) ex_demo_predict (fun m => Some (uniqueZ (snd (snd m)))) ex_demo_lower ex_demo_middle 3
    [0; 8] [4; 9] [1; 7; 6; 9]
  = Ok [[([0; 8], [4; 9]); ([0; 8; 7; 6; 9], [4; 9; 9; 9; 9]); ([0; 8; 7; 6; 9], [4; 9; 9; 9; 9])];
        [([0; 8], [4; 9]); ([0; 8], [4; 9]); ([0; 8], [4; 9])]; [([0; 8], [4; 9]); ([0; 8], [4; 9]); ([0; 8], [4; 9])]].
Proof. vm_compute. reflexivity. Qed.
Example C62_predict_run : demo_predict [3; 5] [9#10; 7#10; 2#10]%Q (1#2) 2 [[3; 5]; [5; 5]; [5; 3]] = Ok [3; 5].
Proof. vm_compute. reflexivity. Qed.

(* ----- C63: S4VM ----- *)
Theorem C63_s4vm_safe {X M} (fit : nat -> list X -> list Z -> M) scores predict argsort k rate Xl yl Xu a b :
  (forall m Z, length (predict m Z) = length Z) -> (forall m Z, length (scores m Z) = length Z) ->
  (forall m Z r, In r (scores m Z) -> r <> []) -> sorts_positions argsort ->
  (0 <= rate)%Q -> length Xl = length yl -> a < b -> (forall l, In l yl <-> l = a \/ l = b) ->
  exists sets best labs conf,
    s4_fit fit scores predict argsort k rate Xl yl Xu = Ok (sets, best) /\
    let base := fit 0%nat Xl yl in
    let pred := predict base Xu in
    let model j := fit j (fst (nth j sets ([], []))) (snd (nth j sets ([], []))) in
    let right j := agreements yl (predict (model j) Xl) in
    length labs = Z.to_nat k /\
    sets = (Xl, yl) :: map (fun lab => (Xl ++ Xu, yl ++ lab)) labs /\
    confidences (scores base Xu) (fun i => nth i conf 0%Q) /\
    (forall i, (i < Z.to_nat k)%nat -> exists n,
       nearest_even (Qmin (rate * inject_Z (Z.of_nat i + 1)) (1 # 2) * inject_Z (Z.of_nat (length Xu))) n /\
       flips_least_confident a b conf pred (nth i labs []) (Z.to_nat n)) /\
    (best <= Z.to_nat k)%nat /\
    (forall j, (j <= Z.to_nat k)%nat -> (right j <= right best)%nat) /\
    (forall j, (j < best)%nat -> (right j < right best)%nat).
Proof. intros A B C D. now apply s4_fit_spec. Qed.

Theorem C63_s4vm_two_classes {X M} (fit : nat -> list X -> list Z -> M) scores predict argsort k rate Xl yl Xu :
  (forall a b, a <> b -> ~ (forall l, In l yl <-> l = a \/ l = b)) ->
  s4_fit fit scores predict argsort k rate Xl yl Xu = Err InductiveValidationError.
Proof.
  intros H. unfold s4_fit. pose proof (uniqueZ_In yl) as I. pose proof (uniqueZ_NoDup yl) as N.
  destruct (uniqueZ yl) as [|a [|b [|]]]; try reflexivity. exfalso. apply (H a b).
  - inversion N as [|? ? Hn]. subst. intros ->. apply Hn. now left.
  - intros l. rewrite <- (I l). cbn. intuition.
Qed.

Example C63_run : s4_fit ex_fit ex_sc ex_pred ref_argsortQ 2 (1#4)%Q [-5; 5] [7; 8] [1; -4; 6; -2]
  = Ok ([([-5; 5], [7; 8]); ([-5; 5; 1; -4; 6; -2], [7; 8; 7; 7; 8; 7]); ([-5; 5; 1; -4; 6; -2], [7; 8; 7; 7; 8; 8])], 0%nat).
Proof. vm_compute. reflexivity. Qed.
(* a candidate better than the baseline is kept *)
Example C63_run_candidate : exists sets,
  s4_fit ex_fit ex_sc (fun m Z => map (fun x => if x <? m - 3 then 7 else 8) Z) ref_argsortQ 2 (1#4)%Q [-1; 5] [7; 8] [1; 2]
  = Ok (sets, 1%nat).
Proof. eexists. vm_compute. reflexivity. Qed.

Print Assumptions C59_tri_training_partial.
Print Assumptions C59_pseudo_labels_refuted.
Print Assumptions C60_single_proba_partial.
Print Assumptions C60_tri_proba_partial.
Print Assumptions C60_tri_predict_partial.
Print Assumptions C60_co_predict_partial.
Print Assumptions C60_signed_scores_refuted.
Print Assumptions C60_negative_sum_reverses.
Print Assumptions C60_binary_decision_refuted.
Print Assumptions C60_tri_predict_refuted.
Print Assumptions C61_setred_history.
Print Assumptions C61_setred_filter.
Print Assumptions C61_edge_weights.
Print Assumptions C61_rng_graph.
Print Assumptions C61_knn_graph_partial.
Print Assumptions C61_knn_graph_refuted.
Print Assumptions C62_democratic_history.
Print Assumptions C62_combined_prediction.
Print Assumptions C62_unanimous_prediction_partial.
Print Assumptions C62_unanimous_prediction_refuted.
Print Assumptions C63_s4vm_safe.
Print Assumptions C63_s4vm_two_classes.
