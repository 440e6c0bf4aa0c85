(* C136: the hop averages of GraphHop.  C137: fit and predict_proba of GraphHop. *)
From Coq Require Import QArith Qminmax Lia Lqa ZifyBool ZifyNat.
From Verif Require Import Prelude ListFacts QFacts TransModel GnnModel GnnSpec HopModel HopSpec HopProofs HopRunProofs HopEndProofs.
Local Open Scope Z_scope.
Local Open Scope list_scope.
Local Notation length := List.length.

(* ---- C136 *)
(* hop h (from 0) joins i to exactly the nodes at distance h + 1 from it, each once *)
Theorem C136_hops : forall edges n sym hops h u i, (h < hops)%nat ->
  (In (u, i) (hop_edges (adj_list edges n sym) n hops h) <-> 0 <= i < n /\ distance (linked edges n sym) i u (S h)).
Proof. exact hop_edges_iff. Qed.
Theorem C136_once : forall edges n sym hops h, (h < hops)%nat -> NoDup (hop_edges (adj_list edges n sym) n hops h).
Proof. exact hop_edges_nodup. Qed.
(* two hops never share an edge *)
Theorem C136_apart : forall edges n sym hops h h' e, (h < hops)%nat -> (h' < hops)%nat ->
  In e (hop_edges (adj_list edges n sym) n hops h) -> In e (hop_edges (adj_list edges n sym) n hops h') -> h = h'.
Proof.
  intros edges n sym hops h h' [u i] H H' I I'. apply hop_edges_iff in I as (_ & P & F), I' as (_ & P' & F'); [|assumption..].
  destruct (Nat.lt_trichotomy h h') as [L|[E|L]]; [|exact E|]; exfalso; [apply (F' (S h)); [lia|exact P]|apply (F (S h')); [lia|exact P']].
Qed.
(* what a node receives from a hop is the average over the nodes at that distance *)
Theorem C136_average : forall edges n sym hops h width F i, 0 <= i < n -> (h < hops)%nat ->
  ring_average (linked edges n sym) i (S h) width F (nth (Z.to_nat i) (spmm (hop_weighted (hop_edges (adj_list edges n sym) n hops h)) (Z.to_nat n) width F) []).
Proof. exact hop_row. Qed.
(* the input of classifier m: the row of a node and its averages at the distances 1, ..., m + 1 *)
Theorem C136_inputs : forall edges n sym hops width F m, (m < hops)%nat -> 0 <= n ->
  hop_input (linked edges n sym) (Z.to_nat n) width F m (nth m (hop_inputs (adj_list edges n sym) n hops width F) []).
Proof. exact hop_inputs_ok. Qed.
(* finding: without symmetrize a node takes from the nodes it points to, not from those that point to it *)
Theorem C136_direction_refuted : ~ (forall edges n u i, In (u, i) edges -> 0 <= u < n -> 0 <= i < n -> u <> i -> In (u, i) (hop_edges (adj_list edges n false) n 1 0)).
Proof. intros H. specialize (H [(0, 1)] 2 0 1 (or_introl eq_refl) ltac:(lia) ltac:(lia) ltac:(lia)). vm_compute in H. destruct H as [H|[]]. discriminate H. Qed.
Example C136_case : hop_edges (adj_list [(0, 1); (1, 2); (1, 1); (2, 3)] 5 true) 5 2 1 = [(2, 0); (3, 1); (0, 2); (1, 3)] /\
  map Qred (nth 2 (nth 1 (hop_inputs (adj_list [(0, 1); (1, 2); (2, 3)] 4 true) 4 2 1 [[1]; [2]; [3]; [6]]%Q) []) []) = [3; 4; 1]%Q.
Proof. split; [reflexivity|]. vm_compute. reflexivity. Qed.

(* ---- C137 *)
Section C137.
Context {M Op G : Type}.
Variable fresh : G -> nat -> nat -> M * G.
Variable adam : M -> Op.
Variable descend : M -> Op -> (M -> option Q) -> M * Op.
Variable log_prob : M -> list Q -> list (option Q).
Variable soft : M -> list Q -> list Q.
Variable temp_soft : Q -> M -> list Q -> list Q.
Variable expo : Q -> Q.
Variable rsqrt : Q -> Q.
Variable tiny : Q.
Variable seeded : Z -> G.
Notation fit := (hop_fit M Op G fresh adam descend log_prob soft temp_soft expo rsqrt tiny seeded).
(* a fit succeeds exactly on these settings and data *)
Theorem C137_returns : forall sp seed d, (exists st, fit sp seed d = Ok st) <->
  1 <= hs_hops sp /\ (0 < hs_temperature sp)%Q /\ usable d /\ weights_fit (hs_hops sp) (hs_weight_temp sp) /\ weights_fit (hs_hops sp) (hs_weight_pred sp) /\
  exists train t, nd_train d = Some train /\ top_label (nd_y d) t /\ labelled_ok train (nd_y d) t.
Proof.
  intros sp seed d. split.
  - intros (st & HF). apply hop_fit_iff in HF as (train & t & (H1 & H2 & H3 & H4 & H5 & H6 & H7 & H8) & _). split; [exact H1|]. split; [exact H2|]. split; [exact H3|]. split; [exact H7|]. split; [exact H8|]. exists train, t. auto.
  - intros (H1 & H2 & H3 & H7 & H8 & train & t & H4 & H5 & H6). eexists. apply hop_fit_iff. exists train, t. split; [|reflexivity]. unfold fit_ok. auto 10.
Qed.
(* the result: one classifier is trained on the labelled nodes with the features and their averages; its predictions are then
   improved max_iter times, each time with one classifier per hop trained on the averages of the predictions *)
Theorem C137_fit : forall sp seed d st train t val, fit sp seed d = Ok st -> nd_train d = Some train -> top_label (nd_y d) t -> validation (nd_val d) val ->
  (forall m r, length (temp_soft (hs_temperature sp) m r) = Z.to_nat (t + 1)) ->
  let n := length (nd_X d) in let k := Z.to_nat (t + 1) in let link := linked (nd_edges d) (Z.of_nat n) (hs_symmetrize sp) in
  exists X start m0 g P wt wp,
    hop_input link n (nd_width d) (nd_X d) (Z.to_nat (hs_hops sp) - 1) X /\ fresh (seeded seed) (length (hd [] X)) k = (start, g) /\
    trained_on adam descend log_prob expo sp n k train val (nd_y d) true X [] start m0 /\
    pseudo_labels n k train (nd_y d) P (fun i c => nth c (temp_soft (hs_temperature sp) m0 (nth i X [])) 0%Q) /\
    hop_weight (hs_hops sp) (hs_weight_temp sp) wt /\ hop_weight (hs_hops sp) (hs_weight_pred sp) wp /\
    iterates fresh adam descend log_prob soft temp_soft expo sp link n k train val (nd_y d) wt wp (Z.to_nat (hs_max_iter sp)) true (map (soft m0) X) P [] g (st_proba st) /\ st_n st = Z.of_nat n.
Proof. intros sp seed d st train t val. apply fit_follows. Qed.
(* the labels of nodes outside the training and validation masks do not change the result *)
Theorem C137_hidden : forall sp seed d y' st st' train t, fit sp seed d = Ok st -> fit sp seed (relabelled d y') = Ok st' -> nd_train d = Some train -> top_label (nd_y d) t -> top_label y' t ->
  (forall i, sel train i = true -> nth i (nd_y d) (-1) = nth i y' (-1)) -> (forall i, selected (nd_val d) i -> nth i (nd_y d) (-1) = nth i y' (-1)) -> st = st'.
Proof. intros sp seed d y' st st' train t. apply fit_hidden. Qed.
(* the rows of the result are distributions, if those of the classifiers are and the given weights of the hops are one *)
Theorem C137_rows : forall sp seed d st t, fit sp seed d = Ok st -> top_label (nd_y d) t -> (forall m r, length (soft m r) = Z.to_nat (t + 1) /\ distribution (soft m r)) ->
  match hs_weight_pred sp with Some w => distribution w | None => True end ->
  length (st_proba st) = length (nd_X d) /\ forall i, (i < length (nd_X d))%nat -> length (nth i (st_proba st) []) = Z.to_nat (t + 1) /\ distribution (nth i (st_proba st) []).
Proof. intros sp seed d st t. apply fit_rows. Qed.
(* predict_proba gives what fit computed, to a data set of as many nodes *)
Theorem C137_predict : forall sp seed d st n P, fit sp seed d = Ok st -> (hop_predict (Some st) n = Ok P <-> n = lenZ (nd_X d) /\ P = st_proba st).
Proof.
  intros sp seed d st n P HF. apply hop_fit_iff in HF as (train & t & _ & ->). cbn [hop_predict outcome st_n st_proba]. destruct (Z.eqb_spec n (lenZ (nd_X d))) as [E|E]; cbn [negb].
  - split; [intros [= <-]; auto|intros [_ ->]; reflexivity].
  - split; [discriminate|intros [E' _]; contradiction].
Qed.
Theorem C137_unfitted : forall n, hop_predict None n = Err RuntimeError.
Proof. reflexivity. Qed.
End C137.

(* ---- a case: the weights are the number of steps; four nodes on a path *)
Definition demo_fresh (g w k : nat) : nat * nat := (0%nat, S g).
Definition demo_descend (m : nat) (o : unit) (L : nat -> option Q) : nat * unit := (S m, tt).
Definition demo_soft (m : nat) (r : list Q) : list Q := if Qle_bool (hd 0%Q r) (1 # 2) then [3 # 4; 1 # 4]%Q else [1 # 4; 3 # 4]%Q.
(* the number of steps can be read off the probabilities *)
Definition demo_trace (m : nat) (r : list Q) : list Q := [inject_Z (Z.of_nat m); 1 - inject_Z (Z.of_nat m)]%Q.
Definition demo_loss (losses : list (option Q)) (m : nat) (r : list Q) : list (option Q) := [option_map Qopp (nth m losses None); option_map Qopp (nth m losses None)].
Definition demo_fit losses soft := hop_fit nat unit nat demo_fresh (fun _ => tt) demo_descend (demo_loss losses) soft (fun _ => demo_soft) (fun x => x) (fun x => x) (1 # 1000) (fun s => Z.to_nat s).
Definition demo_spec : hop_spec := {| hs_hops := 2; hs_max_iter := 1; hs_max_epochs := 4; hs_patience := 3; hs_min_delta := 0; hs_temperature := 1 # 2; hs_alpha := 1; hs_beta := 1; hs_weight_temp := None; hs_weight_pred := None; hs_symmetrize := true |}.
Definition demo_data (y : list Z) : node_data := {| nd_X := [[0]; [1]; [0]; [1]]%Q; nd_width := 1; nd_y := y; nd_edges := [(0, 1); (1, 2); (2, 3)]; nd_weight := None;
  nd_train := Some [true; true; false; false]; nd_val := Some [false; false; true; false]; nd_test := None; nd_unlabeled := None |}.
Example C137_case : match demo_fit (map Some [9; 5; 1; 3; 2]%Q) demo_soft demo_spec 7 (demo_data [0; 1; 0; 1]) with
  | Ok st => map (map Qred) (st_proba st) = [[1 # 4; 3 # 4]; [3 # 4; 1 # 4]; [1 # 4; 3 # 4]; [3 # 4; 1 # 4]]%Q | Err _ => False end.
Proof. vm_compute. reflexivity. Qed.
Example C137_case_contracts : (forall m r, length (demo_soft m r) = Z.to_nat (1 + 1) /\ distribution (demo_soft m r)) /\ top_label [0; 1; 0; 1] 1 /\ validation (nd_val (demo_data [])) (nd_val (demo_data [])).
Proof.
  split; [|split].
  - intros m r. unfold demo_soft, distribution. destruct (Qle_bool _ _); (split; [reflexivity|]); (split; [|reflexivity]); intros x [<-|[<-|[]]]; discriminate.
  - split; [cbn; tauto|]. intros v Hv. cbn in Hv. lia.
  - split; [reflexivity|]. exists 2%nat. reflexivity.
Qed.
(* finding: a class that only unlabelled nodes have makes the fit fail, although those labels are not used *)
Theorem C137_unseen_class_refuted : exists d, usable d /\ (exists train i, nd_train d = Some train /\ sel train i = true) /\
  (forall i, selected (nd_train d) i \/ selected (nd_val d) i -> 0 <= nth i (nd_y d) (-1) <= 1) /\ demo_fit [] demo_soft demo_spec 7 d = Err ValueError.
Proof.
  exists (demo_data [0; 1; 0; 2]). split; [|split; [exists [true; true; false; false], 0%nat; split; reflexivity|split; [|vm_compute; reflexivity]]].
  - unfold usable. cbn [demo_data nd_X nd_y nd_edges nd_train nd_val nd_test nd_unlabeled nd_weight]. split; [reflexivity|]. split; [intros c b Hc Hb; cbn in Hc |- *; lia|]. split; [intros e He; cbn in He; unfold lenZ; cbn; destruct He as [<-|[<-|[<-|[]]]]; cbn; lia|]. split; [eexists; reflexivity|]. split; [|exact I].
    intros m [[= <-]|[[= <-]|[H|H]]]; [reflexivity|reflexivity|discriminate H|discriminate H].
  - intros i. cbn [selected demo_data nd_train nd_val nd_y]. unfold sel. intros [H|H]; destruct i as [|[|[|[|[|i]]]]]; cbn in H |- *; try discriminate H; lia.
Qed.
(* finding: a hidden label below minus the number of classes is an error, one above it is not *)
Theorem C137_hidden_label_refuted : demo_fit [] demo_soft demo_spec 7 (demo_data [0; 1; 0; -100]) = Err IndexError /\ exists st, demo_fit [] demo_soft demo_spec 7 (demo_data [0; 1; 0; -1]) = Ok st.
Proof. split; [vm_compute; reflexivity|]. vm_compute. eexists. reflexivity. Qed.
(* finding: each epoch is compared with the one before, not with the best: the weights kept (those after step 4, loss 2) are not
   the best of the training (those after step 2, loss 1) *)
Definition demo_once : hop_spec := {| hs_hops := 1; hs_max_iter := 0; hs_max_epochs := 4; hs_patience := 3; hs_min_delta := 0; hs_temperature := 1; hs_alpha := 1; hs_beta := 1; hs_weight_temp := None; hs_weight_pred := None; hs_symmetrize := true |}.
Theorem C137_best_refuted : exists st, demo_fit (map Some [9; 5; 1; 3; 2]%Q) demo_trace demo_once 7 (demo_data [0; 1; 0; 1]) = Ok st /\ nth 0 (st_proba st) [] = demo_trace 4 [].
Proof. eexists. split; [vm_compute; reflexivity|]. vm_compute. reflexivity. Qed.
(* finding: a loss that is not a number counts as better than any other, and the next one as better than it *)
Theorem C137_nan_refuted : exists st, demo_fit [Some 9; Some 1; None; Some 8; Some 9]%Q demo_trace demo_once 7 (demo_data [0; 1; 0; 1]) = Ok st /\ nth 0 (st_proba st) [] = demo_trace 3 [].
Proof. eexists. split; [vm_compute; reflexivity|]. vm_compute. reflexivity. Qed.
(* finding: weights that do not sum to one are accepted and give rows that do not *)
Definition demo_heavy : hop_spec := {| hs_hops := 1; hs_max_iter := 1; hs_max_epochs := 1; hs_patience := 3; hs_min_delta := 0; hs_temperature := 1; hs_alpha := 1; hs_beta := 1; hs_weight_temp := None; hs_weight_pred := Some [2%Q]; hs_symmetrize := true |}.
Theorem C137_weights_refuted : exists st, demo_fit [] demo_soft demo_heavy 7 (demo_data [0; 1; 0; 1]) = Ok st /\ (Qsum (nth 0 (st_proba st) []) == 2)%Q.
Proof. eexists. split; [vm_compute; reflexivity|]. vm_compute. reflexivity. Qed.

Print Assumptions C136_hops.
Print Assumptions C136_once.
Print Assumptions C136_apart.
Print Assumptions C136_average.
Print Assumptions C136_inputs.
Print Assumptions C136_direction_refuted.
Print Assumptions C137_returns.
Print Assumptions C137_fit.
Print Assumptions C137_hidden.
Print Assumptions C137_rows.
Print Assumptions C137_predict.
Print Assumptions C137_unfitted.
Print Assumptions C137_unseen_class_refuted.
Print Assumptions C137_hidden_label_refuted.
Print Assumptions C137_best_refuted.
Print Assumptions C137_nan_refuted.
Print Assumptions C137_weights_refuted.
