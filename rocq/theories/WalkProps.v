(* C100: the lazy random walk.  C101: dynamic label propagation. *)
From Coq Require Import QArith Qminmax Qabs Lqa ZifyBool ZifyNat.
From Verif Require Import Prelude ListFacts SampleServiceProofs QFacts TransModel TransSpec TransProofs TransSolveProofs WalkModel WalkSpec WalkProofs WalkDynProofs.
Local Open Scope Q_scope.
Local Open Scope list_scope.

(* ---- C100 *)
(* the prediction is the sign of the one solution of f = s + alpha D^-1/2 W D^-1/2 f, ties to the second class *)
Theorem C100_prediction root solve n ei weight y mask alpha d : solves solve -> positive_weights weight ->
  (forall E, graph_edges n ei weight E -> exact_roots root (Z.to_nat n) E) ->
  lazy_random_walk root solve n ei weight y mask alpha = Ok d ->
  exists E a b f, graph_edges n ei weight E /\ the_classes y mask a b /\
    walk_solution root (Z.to_nat n) E alpha (sign_of a b y mask) f /\
    (forall g, walk_solution root (Z.to_nat n) E alpha (sign_of a b y mask) g -> forall i, (i < Z.to_nat n)%nat -> g i == f i) /\
    List.length (d_F d) = Z.to_nat n /\ (forall r, In r (d_F d) -> List.length r = 2%nat) /\
    (forall i, (i < Z.to_nat n)%nat ->
       (0 <= f i -> entry (d_F d) i 0 = 0 /\ entry (d_F d) i 1 = 1) /\ (f i < 0 -> entry (d_F d) i 0 = 1 /\ entry (d_F d) i 1 = 0)).
Proof.
  intros Hs Hw HR H. destruct (lazy_ok root solve _ _ _ _ _ _ _ Hs H) as (Ha & E & a & b & f & EG & Hy & Hm & Hl & Hc & Hi & Hf & _ & _ & [S1 S2] & HF).
  destruct (validate_graph_ok _ _ _ _ EG) as (_ & _ & _ & _ & Hnn). pose proof (validate_graph_edges _ _ _ _ EG) as GE. specialize (HR E GE). specialize (Hf HR).
  exists E, a, b, f. split; [exact GE|]. split; [exact Hc|]. split; [exact Hf|]. split; [|split; [exact S1|split; [exact S2|exact HF]]].
  intros g Hg i Hii. exact (walk_unique root (Z.to_nat n) E alpha Ha (Hnn Hw) Hi HR _ g f Hg Hf i Hii).
Qed.
Print Assumptions C100_prediction.

(* it returns exactly on valid inputs: the system is never singular *)
Theorem C100_returns root solve n ei weight y mask alpha E : graph_edges n ei weight E -> valid_graph n ei weight -> positive_weights weight ->
  solves solve -> finds solve (Z.to_nat n) -> (~ has_isolated (Z.to_nat n) E -> exact_roots root (Z.to_nat n) E) ->
  ((exists d, lazy_random_walk root solve n ei weight y mask alpha = Ok d) <->
   0 < alpha < 1 /\ List.length y = Z.to_nat n /\ List.length mask = Z.to_nat n /\ (exists i, nth i mask false = true) /\
   (exists a b, the_classes y mask a b) /\ ~ has_isolated (Z.to_nat n) E).
Proof.
  intros GE HV Hw Hs Hf HR. apply validate_graph_iff in HV as (E' & EG). assert (E' = E) by (eapply graph_edges_unique; [apply validate_graph_edges, EG|exact GE]). subst E'.
  apply lazy_returns; auto. apply (validate_graph_ok _ _ _ _ EG), Hw.
Qed.
Print Assumptions C100_returns.

(* a part of the graph with labels of one class only: its nodes get that class when they are joined to a label;
   nodes joined to no label always get the second class *)
Theorem C100_separate_part root solve n ei weight y mask alpha d E (C : nat -> bool) : solves solve -> positive_weights weight ->
  graph_edges n ei weight E -> exact_roots root (Z.to_nat n) E ->
  lazy_random_walk root solve n ei weight y mask alpha = Ok d -> closed_set (Z.to_nat n) E C ->
  exists a b, the_classes y mask a b /\
  ((forall j, (j < Z.to_nat n)%nat -> C j = true -> nth j mask false = true -> nth j y (-1)%Z <> a) ->
     forall i, (i < Z.to_nat n)%nat -> C i = true -> entry (d_F d) i 0 = 0 /\ entry (d_F d) i 1 = 1) /\
  ((forall j, (j < Z.to_nat n)%nat -> C j = true -> nth j mask false = true -> nth j y (-1)%Z <> b) ->
     forall i j, C i = true -> joined (Z.to_nat n) E i j -> nth j mask false = true -> nth j y (-1)%Z = a -> entry (d_F d) i 0 = 1 /\ entry (d_F d) i 1 = 0).
Proof.
  intros Hs Hw GE HR H HC. destruct (lazy_ok root solve _ _ _ _ _ _ _ Hs H) as (Ha & E' & a & b & f & EG & Hy & Hm & Hl & Hc & Hi & Hf & _ & _ & _ & HF).
  assert (E' = E) by (eapply graph_edges_unique; [apply validate_graph_edges, EG|exact GE]). subst E'. specialize (Hf HR).
  destruct (validate_graph_ok _ _ _ _ EG) as (_ & _ & _ & _ & Hnn). specialize (Hnn Hw). exists a, b. split; [exact Hc|]. split.
  - intros Hno i Hii HCi. apply HF; [exact Hii|]. apply (walk_nonneg root (Z.to_nat n) E alpha Ha Hnn Hi HR C _ f HC Hf); auto.
    intros j Hj HCj. unfold sign_of. destruct (nth j mask false) eqn:Em; [|lra]. specialize (Hno j Hj HCj Em). destruct (_ =? b)%Z; [lra|]. destruct (Z.eqb_spec (nth j y (-1)%Z) a); [contradiction|lra].
  - intros Hno i j HCi HJ Em Ey. assert (Hii : (i < Z.to_nat n)%nat) by (inversion HJ; assumption). apply HF; [exact Hii|].
    assert (Hab : (a < b)%Z) by (destruct Hc as [[Hab _]|[_ [Hab _]]]; exact Hab).
    apply (walk_negative root (Z.to_nat n) E alpha Ha Hnn Hi HR C _ f HC Hf) with (j := j); auto.
    + intros m Hmm HCm. unfold sign_of. destruct (nth m mask false) eqn:Emm; [|lra]. specialize (Hno m Hmm HCm Emm). destruct (Z.eqb_spec (nth m y (-1)%Z) b); [contradiction|]. destruct (_ =? a)%Z; lra.
    + unfold sign_of. rewrite Em, Ey, Z.eqb_refl. destruct (Z.eqb_spec a b); [lia|lra].
Qed.
Print Assumptions C100_separate_part.

(* two pairs of nodes, 0 - 1 and 2 - 3; the inverse of the system for alpha = 1/2 *)
Definition pairs : list (Z * Z) := [(0, 1); (1, 0); (2, 3); (3, 2)]%Z.
Definition pairs_inverse (_ : mat) : mat := [[4 # 3; 2 # 3; 0; 0]; [2 # 3; 4 # 3; 0; 0]; [0; 0; 4 # 3; 2 # 3]; [0; 0; 2 # 3; 4 # 3]].
Lemma pairs_roots : exact_roots (fun x => x) 4 (combine pairs [1; 1; 1; 1]).
Proof. intros [|[|[|[|i]]]] Hi; [| | | |lia]; split; vm_compute; reflexivity. Qed.
Lemma pairs_edges : graph_edges 4 pairs None (combine pairs [1; 1; 1; 1]).
Proof. apply validate_graph_edges. reflexivity. Qed.
Example C100_runs : exists d, lazy_random_walk (fun x => x) (checked_solve pairs_inverse) 4 pairs None [0; 1; 0; 1]%Z [true; false; false; true] (1 # 2) = Ok d /\
  d_F d = [[1; 0]; [1; 0]; [0; 1]; [0; 1]] /\ positive_weights None /\ solves (checked_solve pairs_inverse) /\ (forall E, graph_edges 4 pairs None E -> exact_roots (fun x => x) 4 E) /\
  closed_set 4 (combine pairs [1; 1; 1; 1]) (fun i => Nat.leb i 1) /\ joined 4 (combine pairs [1; 1; 1; 1]) 1 0.
Proof.
  eexists. split; [vm_compute; reflexivity|]. split; [reflexivity|]. split; [exact I|]. split; [apply checked_solves|]. split.
  - intros E HE. rewrite (graph_edges_unique _ _ _ _ _ HE pairs_edges). exact pairs_roots.
  - split.
    + intros [|[|[|[|i]]]] [|[|[|[|j]]]] Hi Hj H1 H2; try discriminate; try lia; vm_compute; reflexivity.
    + apply (joined_step 4 _ 1%nat 0%nat 0%nat); [lia|lia|vm_compute; reflexivity|apply joined_self; lia].
Qed.
Example C100_finds : solves (checked_solve cramer) /\ finds (checked_solve cramer) 2 /\ valid_graph 2 [(0, 1)]%Z (Some [2]) /\ exact_roots (fun x => x) 2 [(0%Z, 1%Z, 2)] /\ ~ has_isolated 2 [(0%Z, 1%Z, 2)] /\
  exists d, lazy_random_walk (fun x => x) (checked_solve cramer) 2 [(0, 1)]%Z (Some [2]) [0; 1]%Z [true; false] (1 # 2) = Ok d.
Proof.
  split; [apply checked_solves|]. split; [apply cramer_finds|]. split; [split; [lia|]; split; [|reflexivity]; intros e [<-|[]]; cbn; lia|].
  split; [intros [|[|i]] Hi; [| |lia]; split; vm_compute; reflexivity|]. split; [intros ([|[|i]] & Hi & H); [| |lia]; vm_compute in H; apply H; reflexivity|]. eexists. vm_compute. reflexivity.
Qed.

(* FINDING: with three classes of which only 0 and 2 are shown, class 2 becomes column 1 - the column of class 1 *)
Theorem C100_columns_are_classes_refuted : exists root solve ei y mask i d,
  validate_node y ei [mask] = Ok tt /\ solves solve /\ (forall E, graph_edges (lenZ y) ei None E -> exact_roots root (Z.to_nat (lenZ y)) E) /\
  lazy_random_walk root solve (lenZ y) ei None y mask (1 # 2) = Ok d /\
  nth i mask false = true /\ nth i y (-1)%Z = 2%Z /\ nth i (d_F d) [] = [0; 1].
Proof.
  exists (fun x => x), (checked_solve pairs_inverse), pairs, [0; 1; 2; 1]%Z, [true; false; true; false], 2%nat.
  eexists. split; [reflexivity|]. split; [apply checked_solves|]. split; [intros E HE; rewrite (graph_edges_unique _ _ _ _ _ HE pairs_edges); exact pairs_roots|].
  split; [vm_compute; reflexivity|]. split; [reflexivity|]. split; reflexivity.
Qed.
Print Assumptions C100_columns_are_classes_refuted.
(* FINDING: when only one class is shown, the hidden labels decide which one it is: the same shown labels give
   class 0 in one run, class 1 in another and an exception in a third *)
Theorem C100_hidden_labels_refuted : exists root solve ei y1 y2 y3 mask d1 d2,
  solves solve /\ (forall i, nth i mask false = true -> nth i y1 (-1)%Z = nth i y2 (-1)%Z /\ nth i y1 (-1)%Z = nth i y3 (-1)%Z) /\
  (forall E, graph_edges 4 ei None E -> exact_roots root 4 E) /\
  lazy_random_walk root solve 4 ei None y1 mask (1 # 2) = Ok d1 /\ lazy_random_walk root solve 4 ei None y2 mask (1 # 2) = Ok d2 /\
  nth 0 (d_F d1) [] = [1; 0] /\ nth 0 (d_F d2) [] = [0; 1] /\
  lazy_random_walk root solve 4 ei None y3 mask (1 # 2) = Err ValueError.
Proof.
  exists (fun x => x), (checked_solve pairs_inverse), pairs, [1; 1; 2; 2]%Z, [1; 1; 0; 0]%Z, [1; 1; 1; 1]%Z, [true; true; false; false].
  eexists. eexists. split; [apply checked_solves|]. split; [intros [|[|[|[|i]]]] H; try discriminate; split; reflexivity|].
  split; [intros E HE; rewrite (graph_edges_unique _ _ _ _ _ HE pairs_edges); exact pairs_roots|].
  split; [vm_compute; reflexivity|]. split; [vm_compute; reflexivity|]. split; [reflexivity|]. split; [reflexivity|]. vm_compute. reflexivity.
Qed.
Print Assumptions C100_hidden_labels_refuted.

(* ---- C101 *)
(* the scores are those of max_iter rounds, whatever the residual; the transition matrix keeps the k largest steps of each row *)
Theorem C101_rounds top n ei weight y mask sp d : picks_largest top -> dynamic_propagation top n ei weight y mask sp = Ok d ->
  exists E k P T L, graph_edges n ei weight E /\ class_range y k /\ sparsified (Z.to_nat n) (dl_k sp) (step_prob (Z.to_nat n) E) P /\
    dynamic_run (Z.to_nat n) k P (step_prob (Z.to_nat n) E) y mask (dl_alpha sp) (dl_lambda sp) T L /\
    List.length (d_F d) = Z.to_nat n /\ (forall r, In r (d_F d) -> List.length r = k) /\
    agree (Z.to_nat n) k (entry (d_F d)) (L (Z.to_nat (dl_max_iter sp))) /\ d_iter d = dl_max_iter sp /\
    match d_residual d with
    | None => (dl_max_iter sp <= 0)%Z
    | Some r => (0 < dl_max_iter sp)%Z /\ largest_change (Z.to_nat n) k (L (Z.to_nat (dl_max_iter sp))) (L (Z.to_nat (dl_max_iter sp) - 1)%nat) r
    end.
Proof.
  intros Ht H. destruct (dynamic_ok top Ht _ _ _ _ _ _ _ H) as (_ & _ & E & k & P & T & L & EG & _ & _ & _ & _ & _ & HK & _ & HS & HR & [S1 S2] & HF & HI & HD).
  exists E, k, P, T, L. split; [apply validate_graph_edges, EG|]. repeat (split; [assumption|]). exact HD.
Qed.
Print Assumptions C101_rounds.
Theorem C101_returns top n ei weight y mask sp E : picks_largest top -> graph_edges n ei weight E -> valid_graph n ei weight -> positive_weights weight ->
  ((exists d, dynamic_propagation top n ei weight y mask sp = Ok d) <->
   (0 < dl_k sp)%Z /\ 0 <= dl_alpha sp /\ List.length y = Z.to_nat n /\ List.length mask = Z.to_nat n /\ (exists i, nth i mask false = true) /\ ~ has_isolated (Z.to_nat n) E).
Proof.
  intros Ht GE HV Hw. apply validate_graph_iff in HV as (E' & EG). assert (E' = E) by (eapply graph_edges_unique; [apply validate_graph_edges, EG|exact GE]). subst E'.
  apply dynamic_returns; auto. apply (validate_graph_ok _ _ _ _ EG), Hw.
Qed.
Print Assumptions C101_returns.
(* labelled rows keep their label; with a non-negative lambda no score is negative *)
Theorem C101_scores top n ei weight y mask sp d : picks_largest top -> positive_weights weight -> dynamic_propagation top n ei weight y mask sp = Ok d ->
  exists k, class_range y k /\
  (forall i c, (i < Z.to_nat n)%nat -> (c < k)%nat -> nth i mask false = true -> entry (d_F d) i c == if (nth i y (-1) =? Z.of_nat c)%Z then 1 else 0) /\
  (0 <= dl_lambda sp -> forall i c, (i < Z.to_nat n)%nat -> (c < k)%nat -> 0 <= entry (d_F d) i c).
Proof.
  intros Ht Hw H. destruct (dynamic_ok top Ht _ _ _ _ _ _ _ H) as (_ & Ha & E & k & P & T & L & EG & _ & _ & _ & Hi & _ & HK & _ & HS & HR & _ & HF & _). exists k. split; [exact HK|].
  destruct (validate_graph_ok _ _ _ _ EG) as (_ & _ & _ & _ & Hnn). specialize (Hnn Hw).
  assert (Hp : forall i j, (i < Z.to_nat n)%nat -> (j < Z.to_nat n)%nat -> 0 <= step_prob (Z.to_nat n) E i j).
  { intros i j Hii _. unfold step_prob. apply Qdiv_nonneg; [apply link_nonneg, Hnn|]. apply Qnot_le_lt. intros Hc. apply Hi. exists i. auto. }
  split.
  - intros i c Hii Hc Hm. rewrite (HF i c Hii Hc), (run_labelled _ _ _ _ _ _ _ _ _ _ HR _ i c Hii Hc Hm). unfold target. rewrite Hm. reflexivity.
  - intros Hlam i c Hii Hc. rewrite (HF i c Hii Hc). apply (run_nonneg _ _ _ _ _ _ _ _ _ _ HR Ha Hlam Hp (sparsified_nonneg _ _ _ _ Hp HS)); assumption.
Qed.
Print Assumptions C101_scores.
(* the labels that are not shown only decide how many columns there are: the extra columns are 0 *)
Theorem C101_hidden_labels top n ei weight y y' mask sp d d' k k' : picks_largest top ->
  (forall i, nth i mask false = true -> nth i y (-1)%Z = nth i y' (-1)%Z) -> class_range y k -> class_range y' k' -> (k <= k')%nat ->
  dynamic_propagation top n ei weight y mask sp = Ok d -> dynamic_propagation top n ei weight y' mask sp = Ok d' ->
  forall i c, (i < Z.to_nat n)%nat -> ((c < k)%nat -> entry (d_F d) i c == entry (d_F d') i c) /\ ((k <= c < k')%nat -> entry (d_F d') i c == 0).
Proof.
  intros Ht Hy HK HK' Hk H H'. rewrite (class_range_unique _ _ _ HK (infer_class_range y)) in *. rewrite (class_range_unique _ _ _ HK' (infer_class_range y')) in *.
  apply (dynamic_hidden top n ei weight y y' mask sp d d' Ht Hy); auto.
  unfold infer_num_classes in *. lia.
Qed.
Print Assumptions C101_hidden_labels.

(* selection by repeatedly taking a largest remaining column *)
Fixpoint best (row : list Q) (cands : list nat) (b : nat) : nat :=
  match cands with [] => b | c :: cands => best row cands (if Qle_bool (nth c row 0) (nth b row 0) then b else c) end.
Fixpoint take_best (k : nat) (row : list Q) (cands : list nat) : list nat :=
  match k with
  | O => []
  | S k => match cands with [] => [] | c :: cs => let b := best row cs c in b :: take_best k row (filter (fun j => negb (Nat.eqb j b)) cands) end
  end.
Definition ex_top (k i : nat) (row : list Q) : list nat := take_best k row (filter (fun j => negb (Nat.eqb j i)) (seq 0 (List.length row))).
Lemma best_spec row : forall cands b, (best row cands b = b \/ In (best row cands b) cands) /\ nth b row 0 <= nth (best row cands b) row 0 /\ forall c, In c cands -> nth c row 0 <= nth (best row cands b) row 0.
Proof.
  induction cands as [|c cands IH]; intros b; cbn [best]; [split; [left; reflexivity|split; [lra|intros c []]]|].
  destruct (Qle_bool (nth c row 0) (nth b row 0)) eqn:E.
  - apply Qle_bool_iff in E. destruct (IH b) as (H1 & H2 & H3). split; [destruct H1; [left; assumption|right; right; assumption]|]. split; [exact H2|]. intros x [->|Hx]; [lra|apply H3, Hx].
  - assert (Hlt : nth b row 0 < nth c row 0) by (apply Qnot_le_lt; intros Hc; apply Qle_bool_iff in Hc; congruence). destruct (IH c) as (H1 & H2 & H3).
    split; [right; destruct H1 as [->|H1]; [left; reflexivity|right; exact H1]|]. split; [lra|]. intros x [->|Hx]; [lra|apply H3, Hx].
Qed.
Lemma take_best_spec row : forall k cands, NoDup cands -> (k <= List.length cands)%nat ->
  NoDup (take_best k row cands) /\ List.length (take_best k row cands) = k /\ (forall j, In j (take_best k row cands) -> In j cands) /\
  (forall j m, In j (take_best k row cands) -> In m cands -> ~ In m (take_best k row cands) -> nth m row 0 <= nth j row 0).
Proof.
  induction k as [|k IH]; intros cands Hn Hk; cbn [take_best]; [split; [constructor|split; [reflexivity|split; [intros j []|intros j m []]]]|].
  destruct cands as [|c cs]; [cbn in Hk; lia|]. cbv zeta. destruct (best_spec row cs c) as (B1 & B2 & B3). set (b := best row cs c) in *.
  assert (Hb : In b (c :: cs)) by (destruct B1 as [->|B1]; [left; reflexivity|right; exact B1]).
  assert (Hmax : forall m, In m (c :: cs) -> nth m row 0 <= nth b row 0) by (intros m [<-|Hm]; [exact B2|apply B3, Hm]).
  assert (Hf : forall m, In m (filter (fun j => negb (Nat.eqb j b)) (c :: cs)) <-> In m (c :: cs) /\ m <> b) by (intros m; rewrite filter_In; destruct (Nat.eqb_spec m b); cbn [negb]; intuition congruence).
  assert (Hlen : (k <= List.length (filter (fun j => negb (Nat.eqb j b)) (c :: cs)))%nat).
  { assert (HP : Permutation (c :: cs) (b :: filter (fun j => negb (Nat.eqb j b)) (c :: cs))).
    { apply NoDup_Permutation; [exact Hn|constructor; [intros Hc; apply Hf in Hc; tauto|apply NoDup_filter, Hn]|]. intros m. cbn [In]. rewrite Hf. destruct (Nat.eq_dec m b) as [->|]; [|cbn [In]; intuition congruence]. cbn [In] in Hb. intuition. }
    apply Permutation_length in HP. cbn [List.length] in HP, Hk. lia. }
  destruct (IH _ (NoDup_filter _ Hn) Hlen) as (I1 & I2 & I3 & I4). split; [constructor; [intros Hc; apply I3, Hf in Hc; tauto|exact I1]|]. split; [cbn [List.length]; rewrite I2; reflexivity|]. split.
  - intros j [<-|Hj]; [exact Hb|]. apply I3, Hf in Hj. tauto.
  - intros j m [<-|Hj] Hm Hno; [apply Hmax, Hm|]. apply I4; [exact Hj| |intros Hc; apply Hno; right; exact Hc]. apply Hf. split; [exact Hm|]. intros ->. apply Hno. left. reflexivity.
Qed.
Lemma ex_top_ok : picks_largest ex_top.
Proof.
  intros k i row Hi Hk. unfold ex_top. set (cands := filter (fun j => negb (Nat.eqb j i)) (seq 0 (List.length row))).
  assert (Hn : NoDup cands) by apply NoDup_filter, seq_NoDup.
  assert (Hf : forall m, In m cands <-> (m < List.length row)%nat /\ m <> i) by (intros m; unfold cands; rewrite filter_In, in_seq; destruct (Nat.eqb_spec m i); cbn [negb]; intuition (try lia; congruence)).
  assert (Hlen : List.length cands = (List.length row - 1)%nat).
  { assert (HP : Permutation (seq 0 (List.length row)) (i :: cands)).
    { apply NoDup_Permutation; [apply seq_NoDup|constructor; [intros Hc; apply Hf in Hc; tauto|exact Hn]|]. intros m. cbn [In]. rewrite Hf, in_seq. destruct (Nat.eq_dec m i) as [->|]; intuition (try lia; congruence). }
    apply Permutation_length in HP. rewrite seq_length in HP. cbn [List.length] in HP. lia. }
  destruct (take_best_spec row k cands Hn ltac:(lia)) as (T1 & T2 & T3 & T4). split; [exact T1|]. split; [exact T2|]. split; [intros j Hj; apply Hf, T3, Hj|].
  intros j m Hj Hm Hmi Hno. apply T4; [exact Hj| |exact Hno]. apply Hf. auto.
Qed.
(* a path 0 - 1 - 2 with the ends labelled *)
Definition path3 : list (Z * Z) := [(0, 1); (1, 0); (1, 2); (2, 1)]%Z.
Example C101_runs : exists d, dynamic_propagation ex_top 3 path3 None [0; 1; 1]%Z [true; false; true] {| dl_k := 1; dl_alpha := 1 # 2; dl_lambda := 1 # 10; dl_max_iter := 2 |} = Ok d /\
  Forall2 (Forall2 Qeq) (d_F d) [[1; 0]; [13 # 10; 13 # 10]; [0; 1]] /\ positive_weights None /\ valid_graph 3 path3 None /\ ~ has_isolated 3 (combine path3 [1; 1; 1; 1]).
Proof.
  eexists. split; [vm_compute; reflexivity|]. split; [|split; [exact I|split; [split; [lia|split; [|exact I]]|]]].
  - cbn [d_F]. repeat (constructor; [repeat constructor; vm_compute; reflexivity|]); constructor.
  - intros e [<-|[<-|[<-|[<-|[]]]]]; cbn; lia.
  - intros ([|[|[|i]]] & Hi & H); [| | |lia]; vm_compute in H; apply H; reflexivity.
Qed.
(* a hidden label 2 adds a column of zeros and changes nothing else *)
Example C101_two_labelings : exists d d', dynamic_propagation ex_top 3 path3 None [0; 1; 1]%Z [true; false; true] {| dl_k := 2; dl_alpha := 1 # 2; dl_lambda := 1 # 10; dl_max_iter := 3 |} = Ok d /\
  dynamic_propagation ex_top 3 path3 None [0; 2; 1]%Z [true; false; true] {| dl_k := 2; dl_alpha := 1 # 2; dl_lambda := 1 # 10; dl_max_iter := 3 |} = Ok d' /\ class_range [0; 1; 1]%Z 2 /\ class_range [0; 2; 1]%Z 3 /\
  entry (d_F d) 1 0 == entry (d_F d') 1 0 /\ ~ entry (d_F d) 1 0 == 0.
Proof.
  eexists. eexists. split; [vm_compute; reflexivity|]. split; [vm_compute; reflexivity|]. split; [exact (infer_class_range [0; 1; 1]%Z)|]. split; [exact (infer_class_range [0; 2; 1]%Z)|].
  split; [vm_compute; reflexivity|]. intros H. vm_compute in H. discriminate.
Qed.
(* FINDING: predict_proba returns rows that are not distributions (their sum exceeds 1, with non-negative lambda) *)
Theorem C101_rows_are_distributions_refuted : exists top ei y mask sp d, picks_largest top /\ validate_node y ei [mask] = Ok tt /\ (0 < dl_lambda sp) /\
  dynamic_propagation top (lenZ y) ei None y mask sp = Ok d /\ 1 < Qsum (nth 1 (d_F d) []).
Proof.
  exists ex_top, path3, [0; 1; 1]%Z, [true; false; true], {| dl_k := 1; dl_alpha := 1 # 2; dl_lambda := 1 # 10; dl_max_iter := 2 |}. eexists.
  split; [exact ex_top_ok|]. split; [reflexivity|]. split; [reflexivity|]. split; [vm_compute; reflexivity|]. vm_compute. reflexivity.
Qed.
Print Assumptions C101_rows_are_distributions_refuted.
(* FINDING: a negative lambda is accepted and gives negative scores *)
Theorem C101_negative_lambda_refuted : exists top ei y mask sp d, picks_largest top /\ validate_node y ei [mask] = Ok tt /\
  dynamic_propagation top (lenZ y) ei None y mask sp = Ok d /\ entry (d_F d) 1 0 < 0.
Proof.
  exists ex_top, path3, [0; 1; 1]%Z, [true; false; true], {| dl_k := 1; dl_alpha := 1 # 2; dl_lambda := -3 # 1; dl_max_iter := 2 |}. eexists.
  split; [exact ex_top_ok|]. split; [reflexivity|]. split; [vm_compute; reflexivity|]. vm_compute. reflexivity.
Qed.
Print Assumptions C101_negative_lambda_refuted.
