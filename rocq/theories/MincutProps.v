(* C39: graph min-cut respects the labels and is optimal. *)
From Coq Require Import QArith Relations.
From Verif Require Import Prelude ListFacts TransModel TransSpec TransProofs MincutModel MincutSpec MincutProofs.
Local Open Scope Z_scope.
Local Open Scope list_scope.

(* whenever it returns: hard assignments, the higher labelled class on the second column and the lower on the first,
   and no assignment that respects the labels has a smaller cut *)
Theorem C39_respects_labels_and_is_optimal mf stored n ei weight y mask scale mc F :
  computes_maximum_flows mf -> stores_nonzero stored -> 0 <= mc -> graph_mincuts mf stored n ei weight y mask scale mc = Ok F ->
  exists E lo hi weigh, graph_edges n ei weight E /\ integer_weights scale mc weigh /\ lo < hi /\
    (forall i, nth i mask false = true -> nth i y 0 = lo \/ nth i y 0 = hi) /\
    List.length F = Z.to_nat n /\ (forall r, In r F -> r = [0; 1]%Q \/ r = [1; 0]%Q) /\
    let side := fun i => Qeq_bool (entry F i 1) 1 in
    respects y mask lo hi side /\
    forall side', respects y mask lo hi side' -> cut_weight E weigh side <= cut_weight E weigh side'.
Proof.
  intros Hmf Hst Hmc H. destruct (mincut_inv _ _ _ _ _ _ _ _ _ _ H) as (E & lo & hi & flow & HG & Hy & Hm & Hu & Hs & Hf). destruct (two_classes _ _ _ Hu) as [Hlt Hcl].
  destruct (mincut_run mf stored Hmf Hst _ _ _ _ _ _ _ _ _ _ Hmc HG Hy Hm Hu Hs flow Hf) as (F' & H' & Hl & Hr & Hresp & _ & Hopt). rewrite H in H'. injection H' as <-.
  exists E, lo, hi, (edge_capacity scale mc). split; [exact (validate_graph_edges _ _ _ _ HG)|]. split; [apply edge_capacity_weights|]. split; [exact Hlt|]. split; [|split; [exact Hl|split; [exact Hr|split; [exact Hresp|exact Hopt]]]].
  intros i Hi. apply Hcl. apply in_map_iff. exists i. split; [reflexivity|]. apply TransSolveProofs.flatnonzero_In, Hi.
Qed.
Print Assumptions C39_respects_labels_and_is_optimal.
(* the final sanity check never fails: on valid input with exactly two labelled classes it returns, unless the solver raised *)
Theorem C39_returns_unless_the_solver_raises mf stored n ei weight y mask scale mc lo hi :
  computes_maximum_flows mf -> stores_nonzero stored -> 0 <= mc ->
  (forall a b, In (a, b) ei -> 0 <= a < n /\ 0 <= b < n) -> (forall l, weight = Some l -> List.length l = List.length ei) -> 0 < n -> lenZ y = n -> lenZ mask = n -> (0 < scale)%Q -> lo < hi ->
  (forall v, v = lo \/ v = hi <-> exists i, nth i mask false = true /\ nth i y 0 = v) ->
  (exists F, graph_mincuts mf stored n ei weight y mask scale mc = Ok F) \/ (exists net e, mf net = Err e).
Proof.
  intros Hmf Hst Hmc He Hw Hn Hy Hm Hs Hlt Hcl. destruct (validate_graph_accepts n ei weight Hn He Hw) as [E HG].
  assert (Hu : uniqueZ (map (fun i => nth i y 0) (TransModel.flatnonzero mask)) = [lo; hi]).
  { apply ascending_ext; [apply uniqueZ_ascending| |].
    - constructor; [constructor; [constructor|constructor]|constructor; [exact Hlt|constructor]].
    - intros v. rewrite uniqueZ_In, in_map_iff. cbn [In]. transitivity (v = lo \/ v = hi); [|intuition]. rewrite Hcl. split; [intros (i & <- & Hi); exists i; split; [apply TransSolveProofs.flatnonzero_In, Hi|reflexivity]|intros (i & Hi & <-); exists i; split; [reflexivity|apply TransSolveProofs.flatnonzero_In, Hi]]. }
  destruct (mf (build_network (Z.to_nat n) E (map (fun e => edge_capacity scale mc (e_w e)) E) (filter (fun i => nth i y 0 =? hi) (flatnonzero mask)) (filter (fun i => nth i y 0 =? lo) (flatnonzero mask)))) as [flow|e] eqn:Hf.
  - destruct (mincut_run mf stored Hmf Hst _ _ _ _ _ _ _ _ _ _ Hmc HG Hy Hm Hu Hs flow Hf) as (F & H & _). left. exists F. exact H.
  - right. eexists. exists e. exact Hf.
Qed.
Print Assumptions C39_returns_unless_the_solver_raises.
(* the search finds exactly the nodes reachable along positive entries, whatever the order of the stored columns, and terminates *)
Theorem C39_search_finds_the_reachable_nodes R (ind : nat -> list nat) N s :
  (forall u v, In v (ind u) -> (v < N)%nat) -> (forall u v, (v < N)%nat -> R u v > 0 -> In v (ind u)) -> (s < N)%nat ->
  exists vis, reachable R ind N s = Ok vis /\ List.length vis = N /\ forall v, nth v vis false = true <-> reaches N R s v.
Proof. intros H1 H2 H3. exact (reachable_spec R ind N H1 H2 s H3). Qed.
Print Assumptions C39_search_finds_the_reachable_nodes.

(* a solver for one network: 0 and 1 joined with weight 2, 1 and 2 with weight 1, node 0 forced to the source, 2 to the sink *)
Definition net1 : network := {| net_size := 5; net_entries := [(0, 1, 2%Z); (1, 0, 2%Z); (1, 2, 1%Z); (2, 1, 1%Z); (3, 0, 7%Z); (2, 4, 7%Z)]%nat; net_source := 3; net_sink := 4 |}.
Definition f1 (u v : nat) : Z :=
  match u, v with
  | 3%nat, 0%nat | 0%nat, 1%nat | 1%nat, 2%nat | 2%nat, 4%nat => 1
  | 0%nat, 3%nat | 1%nat, 0%nat | 2%nat, 1%nat | 4%nat, 2%nat => -1
  | _, _ => 0
  end.
Definition mf1 (net : network) : result (nat -> nat -> Z) :=
  if Nat.eqb (net_size net) 5 && Nat.eqb (net_source net) 3 && Nat.eqb (net_sink net) 4 then
    (if list_eq_dec (fun a b : nat * nat * Z => ltac:(repeat decide equality) : {a = b} + {a <> b}) (net_entries net) (net_entries net1) then Ok f1 else Err ValueError)
  else Err ValueError.
Definition stored1 (N : nat) (M : nat -> nat -> Z) (u : nat) : list nat := seq 0 N.
Example mf1_computes : computes_maximum_flows mf1.
Proof.
  intros net f H. unfold mf1 in H. destruct (Nat.eqb (net_size net) 5 && Nat.eqb (net_source net) 3 && Nat.eqb (net_sink net) 4) eqn:E; [|discriminate]. destruct (list_eq_dec _ _ _) as [He|]; [|discriminate]. injection H as <-.
  apply andb_prop in E as [E E3]. apply andb_prop in E as [E1 E2]. apply Nat.eqb_eq in E1, E2, E3. assert (Hn : net = net1) by (destruct net; cbn in *; subst; reflexivity). subst net. clear.
  split.
  - split; [|split].
    + intros u v. do 5 (try destruct u as [|u]); do 5 (try destruct v as [|v]); reflexivity.
    + intros u v Hu Hv. cbn in Hu, Hv. do 5 (try destruct u as [|u]; [do 5 (try destruct v as [|v]; [vm_compute; discriminate|]); lia|]). lia.
    + intros u Hu H1 H2. cbn in Hu, H1, H2. do 5 (try destruct u as [|u]; [first [reflexivity|lia]|]). lia.
  - intros g Hg. assert (H := weak_duality net1 ltac:(cbn; lia) ltac:(cbn; lia) ltac:(cbn; lia) g (fun v => Nat.eqb v 3 || Nat.eqb v 0 || Nat.eqb v 1) Hg eq_refl eq_refl). exact H.
Qed.
Example stored1_stores : stores_nonzero stored1.
Proof. intros N M u v. unfold stored1. rewrite in_seq. split; [lia|]. intros; lia. Qed.
Definition line_edges : list (Z * Z) := [(0, 1); (1, 0); (1, 2); (2, 1)].
Definition line_weights : list Q := [2; 2; 1; 1]%Q.
Example C39_runs : graph_mincuts mf1 stored1 3 line_edges (Some line_weights) [1; 0; 0] [true; false; true] 1 1 = Ok [[0; 1]; [0; 1]; [1; 0]]%Q.
Proof. vm_compute. reflexivity. Qed.
(* the columns are the two sides, not the classes: with the labelled classes 1 and 2 of a valid dataset, the row of a
   node labelled 1 puts everything on column 0 and nothing on column 1 *)
Theorem C39_columns_are_not_classes_refuted :
  exists mf stored n ei weight y mask F i, computes_maximum_flows mf /\ stores_nonzero stored /\ validate_node y ei [mask] = Ok tt /\
    graph_mincuts mf stored n ei weight y mask 1 1 = Ok F /\ nth i mask false = true /\ nth i y (-1) = 1 /\ entry F i 1 = 0%Q.
Proof.
  exists mf1, stored1, 3, line_edges, (Some line_weights), [2; 0; 1], [true; false; true], [[0; 1]; [0; 1]; [1; 0]]%Q, 2%nat.
  split; [exact mf1_computes|]. split; [exact stored1_stores|]. split; [reflexivity|]. split; [vm_compute; reflexivity|]. split; [reflexivity|]. split; reflexivity.
Qed.
Print Assumptions C39_columns_are_not_classes_refuted.
