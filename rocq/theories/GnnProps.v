(* C104 - C107: graph neural networks. *)
From Coq Require Import QArith Qpower Qminmax Qabs Lqa ZifyBool ZifyNat.
From Verif Require Import Prelude ListFacts SampleServiceProofs QFacts TransModel TransSpec TransProofs TransSolveProofs SolveProofs GnnModel GnnSpec GnnProofs GnnNetProofs GnnTrainProofs.
Local Open Scope Q_scope.
Local Open Scope list_scope.

(* ---- C104: the prepared graph *)
(* a data set is accepted exactly when its parts fit together *)
Theorem C104_returns rsqrt tiny d loops mode : (exists p, prepare_data rsqrt tiny d loops mode = Ok p) <-> usable d.
Proof.
  split; [intros [p Hp]; apply prepare_ok in Hp; apply Hp|]. intros H. assert (H' := H). destruct H' as (_ & _ & _ & (m & Hm) & _). eexists. apply prepare_ok. split; [exact H|]. exists m. split; [exact Hm|reflexivity].
Qed.
(* features, labels and masks pass through; the number of classes is one more than the largest label *)
Theorem C104_parts rsqrt tiny d loops mode p : prepare_data rsqrt tiny d loops mode = Ok p ->
  pp_X p = nd_X d /\ pp_y p = nd_y d /\ nd_train d = Some (pp_train p) /\ pp_val p = nd_val d /\ pp_n p = lenZ (nd_X d) /\
  (forall v, In v (nd_y d) -> (v < pp_classes p)%Z) /\ (nd_y d <> [] -> In (pp_classes p - 1)%Z (nd_y d)).
Proof.
  intros H. apply prepare_ok in H as (_ & train & Ht & ->). cbn. repeat (split; [first [reflexivity|exact Ht]|]). split; [apply count_classes_bound|]. intros Hne. destruct (nd_y d) as [|a r]; [congruence|]. cbn [count_classes]. replace (fold_right Z.max a r + 1 - 1)%Z with (fold_right Z.max a r) by lia.
  clear. induction r as [|b r IH]; [now left|]. cbn [fold_right]. destruct (Z.max_spec b (fold_right Z.max a r)) as [[_ ->]|[_ ->]]; [destruct IH as [IH|IH]; [now left|right; now right]|right; now left].
Qed.
(* what a node takes from another: duplicates added up, 1 added for the loop, divided by the node's total *)
Theorem C104_operator rsqrt tiny d loops mode p i j : prepare_data rsqrt tiny d loops mode = Ok p -> (mode = NormSym -> same_value rsqrt) ->
  (i < List.length (nd_X d))%nat -> (j < List.length (nd_X d))%nat ->
  weight_from (pp_E p) i j == takes rsqrt tiny mode loops (List.length (nd_X d)) (weighted d) i j.
Proof.
  intros H Hr Hi Hj. apply prepare_ok in H as (Hu & train & _ & ->). cbn [prepared_of pp_E]. assert (HN : Z.to_nat (lenZ (nd_X d)) = List.length (nd_X d)) by (unfold lenZ; lia). rewrite <- HN. apply prepared_weight; [exact Hr|unfold lenZ; lia|apply weighted_range, Hu|lia|lia].
Qed.
(* random-walk weights: every row sums to 1, and it is empty when nothing arrives *)
Theorem C104_rows rsqrt tiny d loops p i : prepare_data rsqrt tiny d loops NormRw = Ok p -> 0 < tiny <= 1 -> (forall e, In e (weighted d) -> 0 <= e_w e) ->
  let n := List.length (nd_X d) in (i < n)%nat ->
  (forall j, (j < n)%nat -> 0 <= weight_from (pp_E p) i j) /\
  (loops = true \/ tiny <= in_strength loops n (weighted d) i -> Qsum (map (weight_from (pp_E p) i) (seq 0 n)) == 1) /\
  (loops = false -> (forall e, In e (weighted d) -> e_dst e <> Z.of_nat i) -> forall j, (j < n)%nat -> weight_from (pp_E p) i j == 0).
Proof.
  intros H Ht Hw n Hi. assert (HO : forall j, (j < n)%nat -> weight_from (pp_E p) i j == takes rsqrt tiny NormRw loops n (weighted d) i j) by (intros j Hj; apply (C104_operator rsqrt tiny d loops NormRw p i j H); try discriminate; assumption).
  split; [|split].
  - intros j Hj. rewrite (HO j Hj). apply takes_nonneg; [lra|exact Hw].
  - intros HL. rewrite (Qsum_ext _ (takes rsqrt tiny NormRw loops n (weighted d) i) (seq 0 n)) by (intros j Hj; apply in_seq in Hj; apply HO; lia). apply takes_sum; [lra|]. destruct HL as [->|HL]; [|exact HL]. pose proof (strength_loops_large n (weighted d) i Hi Hw). lra.
  - intros -> Hno j Hj. rewrite (HO j Hj). unfold takes, strength. cbn [andb]. rewrite (no_edge_weight (weighted d) i j) by (intros e He [Hd _]; exact (Hno e He Hd)). unfold Qdiv. ring.
Qed.
(* symmetric weights stay symmetric under symmetric normalisation *)
Theorem C104_symmetric rsqrt tiny d loops p : prepare_data rsqrt tiny d loops NormSym = Ok p -> same_value rsqrt -> symmetric (weighted d) -> symmetric (pp_E p).
Proof.
  intros H Hr Hs i j. assert (H' := H). apply prepare_ok in H' as (Hu & train & _ & Hp). assert (HN : Z.to_nat (lenZ (nd_X d)) = List.length (nd_X d)) by (unfold lenZ; lia).
  assert (HR : (0 < lenZ (nd_X d))%Z -> in_range (List.length (nd_X d)) (pp_E p)).
  { intros Hn e He. rewrite Hp in He. cbn [prepared_of pp_E] in He. unfold edge_normalise in He. apply in_map_iff in He as (x & <- & Hx). rewrite e_src_mk, e_dst_mk. rewrite <- HN. exact (with_loops_range loops _ _ Hn (weighted_range d Hu) x Hx). }
  destruct (Nat.lt_ge_cases i (List.length (nd_X d))) as [Hi|Hi]; [destruct (Nat.lt_ge_cases j (List.length (nd_X d))) as [Hj|Hj]|].
  - rewrite !(C104_operator rsqrt tiny d loops NormSym p) by auto. unfold takes, strength. rewrite (Hs i j), (Nat.eqb_sym i j). ring.
  - rewrite !no_edge_weight; [reflexivity| |]; intros e He [H1 H2]; assert (HX := HR ltac:(unfold lenZ; lia) e He); lia.
  - destruct (Nat.lt_ge_cases 0 (List.length (nd_X d))) as [Hz|Hz].
    + rewrite !no_edge_weight; [reflexivity| |]; intros e He [H1 H2]; assert (HX := HR ltac:(unfold lenZ; lia) e He); lia.
    + assert (HE0 : weighted d = []) by (destruct (weighted d) as [|e l] eqn:Ew; [reflexivity|]; assert (HX := weighted_range d Hu e); rewrite Ew in HX; specialize (HX (or_introl eq_refl)); unfold lenZ in HX; lia).
      assert (HP0 : pp_E p = []). { rewrite Hp. cbn [prepared_of pp_E]. rewrite HE0. replace (lenZ (nd_X d)) with 0%Z by (unfold lenZ; lia). destruct loops; reflexivity. } rewrite HP0. reflexivity.
Qed.
(* with loops there is one edge per pair, and a loop on every node; without, the edges are the given ones in their order *)
Theorem C104_edges rsqrt tiny d loops mode p : prepare_data rsqrt tiny d loops mode = Ok p ->
  (loops = false -> map fst (pp_E p) = nd_edges d) /\
  (loops = true -> NoDup (map fst (pp_E p)) /\ forall a b, In (a, b) (map fst (pp_E p)) <-> In (a, b) (nd_edges d) \/ (a = b /\ (0 <= a < lenZ (nd_X d))%Z)).
Proof.
  intros H. apply prepare_ok in H as (Hu & train & _ & ->). cbn [prepared_of pp_E]. set (n := lenZ (nd_X d)).
  assert (HF : forall E, map fst (edge_normalise rsqrt tiny mode E) = map fst E) by (intros E; unfold edge_normalise; rewrite map_map; apply map_ext; intros [[a b] w]; reflexivity). rewrite HF.
  assert (HW : map fst (weighted d) = nd_edges d).
  { destruct Hu as (_ & _ & _ & _ & _ & Hw). unfold weighted. assert (HC : forall (A B : Type) (l : list A) (m : list B), List.length l = List.length m -> map fst (combine l m) = l) by (induction l as [|a l IH]; intros [|b m] Hl; try discriminate; [reflexivity|]; cbn [combine map fst]; f_equal; apply IH; now injection Hl). apply HC. destruct (nd_weight d); [now symmetry|now rewrite map_length]. }
  split; [intros ->; exact HW|]. intros ->. cbn [with_loops].
  destruct (Z.ltb_spec 0 n) as [Hn|Hn].
  - assert (HR := weighted_range d Hu). fold n in HR. assert (HRL := loops_range n _ HR). split.
    + assert (HS := coalesce_sorted n _ Hn HRL). apply ascending_NoDup in HS. change (add_loops n 1 (weighted d)) with (coalesce n (weighted d ++ map (fun i => (i, i, 1)) (arange n))).
      assert (HM : map (pair_key n) (coalesce n (weighted d ++ map (fun i => (i, i, 1)) (arange n))) = map (fun q : Z * Z => (snd q * n + fst q)%Z) (map fst (coalesce n (weighted d ++ map (fun i => (i, i, 1)) (arange n))))) by (rewrite map_map; reflexivity).
      rewrite HM in HS. apply NoDup_map_inv in HS. exact HS.
    + intros a b. rewrite in_map_iff. split.
      * intros ([[a' b'] w] & [= -> ->] & Hin). destruct (coalesce_In n _ _ Hn HRL Hin) as (x & Hx & Hs & Hd). rewrite e_src_mk in Hs. rewrite e_dst_mk in Hd. subst a b. apply in_app_iff in Hx as [Hx|Hx]; [left; apply weighted_In, Hx|]. right. apply in_map_iff in Hx as (k & <- & Hk). apply arange_In in Hk. rewrite e_src_mk, e_dst_mk. split; [reflexivity|exact Hk].
      * intros Hab. assert (Hex : exists w, In (a, b, w) (weighted d ++ map (fun i => (i, i, 1)) (arange n))).
        { destruct Hab as [Hab|[<- Hab]]; [rewrite <- HW in Hab; apply in_map_iff in Hab as ([q w] & Hq & Hin); cbn [fst] in Hq; subst q; exists w; apply in_app_iff; now left|]. exists 1. apply in_app_iff. right. apply in_map_iff. exists a. split; [reflexivity|apply arange_In, Hab]. }
        destruct Hex as (w & Hin). assert (Hk : In (pair_key n (a, b, w)) (uniqueZ (map (pair_key n) (weighted d ++ map (fun i => (i, i, 1)) (arange n))))) by (apply uniqueZ_In, in_map, Hin).
        unfold add_loops, coalesce. destruct (HRL _ Hin) as [Ha _]. rewrite e_src_mk in Ha. destruct (key_div n (a, b, w) Hn ltac:(rewrite e_src_mk; lia)) as [K1 K2]. rewrite e_dst_mk in K1. rewrite e_src_mk in K2.
        eexists. split; [|apply in_map_iff; exists (pair_key n (a, b, w)); split; [reflexivity|exact Hk]]. cbn [fst]. now rewrite K1, K2.
  - assert (HX : nd_X d = []) by (destruct (nd_X d); [reflexivity|unfold n, lenZ in Hn; cbn in Hn; lia]).
    assert (HE0 : nd_edges d = []) by (destruct (nd_edges d) as [|e l] eqn:Ee; [reflexivity|]; destruct Hu as (_ & _ & He & _); rewrite Ee in He; specialize (He e (or_introl eq_refl)); fold n in He; lia).
    assert (HW0 : weighted d = []) by (unfold weighted; now rewrite HE0). rewrite HW0, HE0. replace n with 0%Z by (unfold n; rewrite HX; reflexivity). cbn. split; [constructor|]. intros a b. split; [intros []|intros [[]|[_ ?]]; lia].
Qed.
Definition ex_data (y : list Z) (train : list bool) (val : option (list bool)) (w : option (list Q)) : node_data :=
  {| nd_X := [[1; 0]; [0; 1]; [2; 2]]; nd_width := 2; nd_y := y; nd_edges := [(0, 1); (1, 0); (1, 2); (2, 1); (1, 2)]%Z; nd_weight := w;
     nd_train := Some train; nd_val := val; nd_test := None; nd_unlabeled := None |}.
Definition ex_tiny : Q := 1 # 1000000000000.
Definition ex_rsqrt (x : Q) : Q := 1 / (1 + x).
Lemma ex_usable : usable (ex_data [0; 1; 0]%Z [true; true; false] (Some [false; false; true]) None).
Proof. eapply (proj1 (C104_returns ex_rsqrt ex_tiny _ true NormRw)). eexists. vm_compute. reflexivity. Qed.
Example C104_hypotheses : usable (ex_data [0; 1; 0]%Z [true; true; false] (Some [false; false; true]) None) /\ 0 < ex_tiny <= 1 /\ same_value ex_rsqrt /\
  symmetric (weighted (ex_data [0; 1; 0]%Z [true; true; false] None (Some [1; 1; 1; 3; 2]))) /\
  match prepare_data ex_rsqrt ex_tiny (ex_data [0; 1; 0]%Z [true; true; false] None None) true NormRw with
  | Ok p => map fst (pp_E p) = [(0, 0); (1, 0); (0, 1); (1, 1); (2, 1); (1, 2); (2, 2)]%Z
  | Err _ => False
  end.
Proof.
  split; [exact ex_usable|]. split; [vm_compute; split; [reflexivity|discriminate]|]. split; [intros x y H; unfold ex_rsqrt; rewrite H; reflexivity|]. split; [|vm_compute; reflexivity].
  intros i j. destruct i as [|[|[|i]]], j as [|[|[|j]]]; try reflexivity; rewrite !no_edge_weight; try reflexivity; intros e He [H1 H2]; cbn in He; repeat (destruct He as [<-|He]; [unfold e_dst, e_src in *; cbn [fst snd] in *; lia|]); destruct He.
Qed.
(* negative weights are accepted; a node whose total is 0 then takes and gives huge amounts *)
Theorem C104_negative_weights_refuted : exists rsqrt tiny d p, 0 < tiny <= 1 /\ usable d /\ prepare_data rsqrt tiny d true NormRw = Ok p /\
  Qsum (map (weight_from (pp_E p) 0) (seq 0 3)) == 0 /\ 100000000000 < weight_from (pp_E p) 0 0.
Proof.
  set (d := ex_data [0; 1; 0]%Z [true; true; false] None (Some [1; - (1); 1; 1; 1])).
  exists ex_rsqrt, ex_tiny, d, (match prepare_data ex_rsqrt ex_tiny d true NormRw with Ok p => p | Err _ => {| pp_X := []; pp_y := []; pp_E := []; pp_train := []; pp_val := None; pp_n := 0; pp_classes := 0 |} end).
  split; [vm_compute; split; [reflexivity|discriminate]|]. split; [eapply (proj1 (C104_returns ex_rsqrt ex_tiny d true NormRw)); eexists; vm_compute; reflexivity|]. split; [vm_compute; reflexivity|]. split; vm_compute; reflexivity.
Qed.
Print Assumptions C104_returns. Print Assumptions C104_parts. Print Assumptions C104_operator. Print Assumptions C104_rows. Print Assumptions C104_symmetric. Print Assumptions C104_edges. Print Assumptions C104_negative_weights_refuted.

(* ---- C105: propagation *)
Lemma local_weaken E E' n r f : (forall r j i, within E' r j i -> within E r j i) -> local E' n r f -> local E n r f.
Proof. intros H HL X X' i HX HX' Hi HR. apply HL; auto. Qed.
(* how far each architecture looks, in edges of the given graph *)
Theorem C105_reach rsqrt tiny d loops mode p : prepare_data rsqrt tiny d loops mode = Ok p -> let n := List.length (nd_X d) in let E := weighted d in
  (forall k w, local E n (Z.to_nat k) (propagate k n w (pp_E p))) /\
  (forall mlp k alpha c, local E n (Z.to_nat k) (appnp mlp k alpha n c (pp_E p))) /\
  (forall lin1 lin2 h c, local E n 2 (gcn lin1 lin2 n h c (pp_E p))) /\
  (forall lin1 lin2 w h, local E n 2 (graphsage lin1 lin2 n w h (pp_E p))) /\
  (forall mix1 mix2 k w h, local E n (2 * Z.to_nat k) (chebnet mix1 mix2 k n w h (pp_E p))) /\
  (forall lin_in layers lin_out alpha h, local E n (List.length layers) (gcnii lin_in layers lin_out alpha n h (pp_E p))) /\
  (forall exp eps lin score c, local E n 1 (gat_head exp eps lin score n c (pp_E p))).
Proof.
  intros H n E. apply prepare_ok in H as (Hu & train & _ & ->). cbn [prepared_of pp_E]. assert (HN : Z.to_nat (lenZ (nd_X d)) = n) by (unfold lenZ, n; lia).
  set (E' := edge_normalise rsqrt tiny mode (with_loops loops (lenZ (nd_X d)) (weighted d))).
  destruct (Nat.lt_ge_cases 0 n) as [Hpos|Hz].
  - assert (Hn : (0 < lenZ (nd_X d))%Z) by (unfold lenZ; fold n; lia).
    assert (HR : in_range n E') by (intros e He; unfold E', edge_normalise in He; apply in_map_iff in He as (x & <- & Hx); rewrite e_src_mk, e_dst_mk, <- HN; exact (with_loops_range loops _ _ Hn (weighted_range d Hu) x Hx)).
    assert (HW : forall r j i, within E' r j i -> within E r j i) by (intros r j i; apply within_prepared; [exact Hn|apply weighted_range, Hu]).
    repeat split; intros; apply (local_weaken E E' n _ _ HW).
    + apply local_sgc, HR. + apply local_appnp, HR. + apply local_gcn, HR. + apply local_sage, HR. + apply local_cheb, HR. + apply local_gcnii, HR. + apply local_gat, HR.
  - repeat split; intros; intros X X' i HX HX' Hi; lia.
Qed.
(* random-walk weights over nonnegative edges: SGC, GRAND and APPNP stay between the smallest and the largest value of each column *)
Theorem C105_bounds rsqrt tiny d loops p lo hi c : prepare_data rsqrt tiny d loops NormRw = Ok p -> 0 < tiny <= 1 -> (forall e, In e (weighted d) -> 0 <= e_w e) ->
  let n := List.length (nd_X d) in
  (loops = true \/ forall i, (i < n)%nat -> tiny <= in_strength loops n (weighted d) i) ->
  (forall k X, in_box n c lo hi (entry X) -> in_box n c lo hi (entry (propagate k n c (pp_E p) X))) /\
  (forall mlp k alpha X, 0 <= alpha <= 1 -> in_box n c lo hi (entry (map mlp X)) -> in_box n c lo hi (entry (appnp mlp k alpha n c (pp_E p) X))).
Proof.
  intros H Ht Hw n HL. apply prepare_ok in H as (Hu & train & _ & ->). cbn [prepared_of pp_E]. assert (HN : Z.to_nat (lenZ (nd_X d)) = n) by (unfold lenZ, n; lia).
  destruct (Nat.lt_ge_cases 0 n) as [Hpos|Hz]; [|split; intros; intros i c' Hi; lia]. assert (Hn : (0 < lenZ (nd_X d))%Z) by (unfold lenZ; fold n; lia). assert (HR := weighted_range d Hu).
  set (P := takes rsqrt tiny NormRw loops n (weighted d)).
  assert (HP : forall i j, (i < n)%nat -> (j < n)%nat -> 0 <= P i j) by (intros i j _ _; apply takes_nonneg; [lra|exact Hw]).
  assert (H1 : forall i, (i < n)%nat -> Qsum (map (P i) (seq 0 n)) == 1).
  { intros i Hi. apply takes_sum; [lra|]. destruct HL as [->|HL]; [|exact (HL i Hi)]. pose proof (strength_loops_large n (weighted d) i Hi Hw). lra. }
  rewrite <- HN. split.
  - intros k X HX i c' Hi Hc. rewrite (propagate_entry rsqrt tiny NormRw loops _ _ ltac:(discriminate) Hn HR k c X i c' Hi Hc). rewrite HN in *. revert i c' Hi Hc. generalize (Z.to_nat k). intros m. induction m as [|m IH]; intros i c' Hi Hc; [apply HX; assumption|]. rewrite iter_S. unfold walk_step at 1 3. rewrite HN. apply (mix_bounds n P HP H1 (lo c') (hi c') (fun j => Nat.iter m (walk_step rsqrt tiny NormRw loops (lenZ (nd_X d)) (weighted d)) (entry X) j c') i Hi). intros j Hj. apply IH; assumption.
  - intros mlp k alpha X Ha HX i c' Hi Hc. rewrite (appnp_entry rsqrt tiny NormRw loops _ _ ltac:(discriminate) Hn HR mlp k alpha c X i c' Hi Hc). rewrite HN in *. fold P. revert i c' Hi Hc. change (in_box n c lo hi (Nat.iter (Z.to_nat k) (ppr_step n P alpha (entry (map mlp X))) (entry (map mlp X)))). generalize (Z.to_nat k). intros m. induction m as [|m IH]; [exact HX|]. rewrite iter_S. apply ppr_bounds; assumption.
Qed.
(* APPNP approaches the one fixed point of personalised propagation, and the distance shrinks by 1 - alpha with every round *)
Theorem C105_appnp rsqrt tiny d loops p mlp alpha c X : prepare_data rsqrt tiny d loops NormRw = Ok p -> 0 < tiny <= 1 -> (forall e, In e (weighted d) -> 0 <= e_w e) ->
  let n := List.length (nd_X d) in
  (loops = true \/ forall i, (i < n)%nat -> tiny <= in_strength loops n (weighted d) i) -> 0 < alpha <= 1 ->
  exists h, (forall i a, (i < n)%nat -> (a < c)%nat -> h i a == (1 - alpha) * Qsum (map (fun j => weight_from (pp_E p) i j * h j a) (seq 0 n)) + alpha * entry (map mlp X) i a) /\
    (forall h', (forall i a, (i < n)%nat -> (a < c)%nat -> h' i a == (1 - alpha) * Qsum (map (fun j => weight_from (pp_E p) i j * h' j a) (seq 0 n)) + alpha * entry (map mlp X) i a) -> forall i a, (i < n)%nat -> (a < c)%nat -> h' i a == h i a) /\
    forall dist k, (0 <= k)%Z -> apart_by n c dist (entry (map mlp X)) h -> apart_by n c ((1 - alpha) ^ k * dist) (entry (appnp mlp k alpha n c (pp_E p) X)) h.
Proof.
  intros H Ht Hw n HL Ha. assert (HO := fun i j => C104_operator rsqrt tiny d loops NormRw p i j H ltac:(discriminate)). fold n in HO. apply prepare_ok in H as (Hu & train & _ & ->). cbn [prepared_of pp_E] in *. assert (HN : Z.to_nat (lenZ (nd_X d)) = n) by (unfold lenZ, n; lia).
  set (E' := edge_normalise rsqrt tiny NormRw (with_loops loops (lenZ (nd_X d)) (weighted d))) in *.
  destruct (Nat.lt_ge_cases 0 n) as [Hpos|Hz]; [|exists (fun _ _ => 0); split; [intros; lia|split; [intros; lia|intros dist k _ _ i a Hi; lia]]]. assert (Hn : (0 < lenZ (nd_X d))%Z) by (unfold lenZ; fold n; lia). assert (HR := weighted_range d Hu).
  set (P := takes rsqrt tiny NormRw loops n (weighted d)) in *.
  assert (HP : forall i j, (i < n)%nat -> (j < n)%nat -> 0 <= P i j) by (intros i j _ _; apply takes_nonneg; [lra|exact Hw]).
  assert (H1 : forall i, (i < n)%nat -> Qsum (map (P i) (seq 0 n)) == 1).
  { intros i Hi. apply takes_sum; [lra|]. destruct HL as [->|HL]; [|exact (HL i Hi)]. pose proof (strength_loops_large n (weighted d) i Hi Hw). lra. }
  set (h0 := entry (map mlp X)).
  assert (HS : forall (h : nat -> nat -> Q) i a, (i < n)%nat -> (1 - alpha) * Qsum (map (fun j => weight_from E' i j * h j a) (seq 0 n)) + alpha * h0 i a == ppr_step n P alpha h0 h i a).
  { intros h i a Hi. unfold ppr_step. apply Qplus_comp; [|reflexivity]. apply Qmult_comp; [reflexivity|]. apply Qsum_ext. intros j Hj. apply in_seq in Hj. rewrite (HO i j) by lia. reflexivity. }
  destruct (ppr_fixed n c P HP H1 alpha h0 Ha) as (h & Hh). exists h. split; [|split].
  - intros i a Hi Hc. rewrite (HS h i a Hi), (Hh i a Hi Hc). reflexivity.
  - intros h' Hf. intros i a Hi Hc. assert (Hseq : seq 0 n <> []) by (destruct n; [lia|discriminate]).
    destruct (argmin (fun l => - Qabs (h' l a - h l a)) (seq 0 n) Hseq) as (m & Hm & Hmax). apply in_seq in Hm. assert (Hm' : (m < n)%nat) by lia. set (D := Qabs (h' m a - h m a)).
    assert (HD : forall l, (l < n)%nat -> Qabs (h' l a - h l a) <= D) by (intros l Hl; specialize (Hmax l ltac:(apply in_seq; lia)); unfold D; lra).
    assert (HM := mix_apart n P HP H1 D (fun j => h' j a) (fun j => h j a) m Hm' HD). cbn beta in HM.
    assert (HEq : h' m a - h m a == (1 - alpha) * (Qsum (map (fun j => P m j * h' j a) (seq 0 n)) - Qsum (map (fun j => P m j * h j a) (seq 0 n)))).
    { rewrite (Hf m a Hm' Hc), (HS h' m a Hm'). rewrite <- (Hh m a Hm' Hc) at 1. unfold ppr_step. ring. }
    assert (HDD : D <= (1 - alpha) * D) by (unfold D at 1; rewrite HEq, Qabs_Qmult, (Qabs_pos (1 - alpha)) by lra; apply Qmult_le_l_nonneg'; [lra|exact HM]).
    assert (H0 : 0 <= D) by apply Qabs_nonneg. assert (HD0 : D <= 0) by nra. specialize (HD i Hi). assert (HA : Qabs (h' i a - h i a) <= 0) by lra. apply Qabs_Qle_condition in HA. lra.
  - intros dist k Hk Hd i a Hi Hc. assert (HA := appnp_entry rsqrt tiny NormRw loops _ _ ltac:(discriminate) Hn HR mlp k alpha c X i a). fold E' in HA. rewrite HN in HA. rewrite (HA Hi Hc). assert (HK := ppr_iter n c P HP H1 alpha h0 h dist (Z.to_nat k) ltac:(lra) Hh Hd i a Hi Hc). rewrite Z2Nat.id in HK by exact Hk. exact HK.
Qed.
(* attention: positive, and the edges arriving at a node share 1, up to the small constant *)
Theorem C105_attention exp tiny E l i : (forall x, 0 < exp x) -> (forall x, x == 0 -> exp x == 1) -> 0 <= tiny -> List.length l = List.length E -> (exists e, In e E /\ e_dst e = i) ->
  (forall a, In a (edge_softmax exp tiny E l) -> 0 < a) /\
  1 - tiny <= Qsum (map snd (filter (fun q : edge * Q => (e_dst (fst q) =? i)%Z) (combine E (edge_softmax exp tiny E l)))) <= 1.
Proof. apply attention_sum. Qed.
Definition ex_exp (x : Q) : Q := if Qle_bool x 0 then 1 / (1 - x) else 1 + x.
Example C105_hypotheses : (forall e, In e (weighted (ex_data [0; 1; 0]%Z [true; true; false] None None)) -> 0 <= e_w e) /\ (forall x, 0 < ex_exp x) /\ (forall x, x == 0 -> ex_exp x == 1) /\
  within (weighted (ex_data [0; 1; 0]%Z [true; true; false] None None)) 2 0 2 /\ ~ within (weighted (ex_data [0; 1; 0]%Z [true; true; false] None None)) 1 0 2 /\
  in_box 3 2 (fun _ => 0) (fun _ => 2) (entry (nd_X (ex_data [0; 1; 0]%Z [true; true; false] None None))).
Proof.
  split; [intros e He; cbn in He; repeat (destruct He as [<-|He]; [vm_compute; discriminate|]); destruct He|].
  assert (HX : forall x, 0 < ex_exp x) by (intros x; unfold ex_exp; destruct (Qle_bool x 0) eqn:E; [apply Qle_bool_iff in E; apply Qlt_shift_div_l; lra|assert (~ x <= 0) by (intros Hc; apply Qle_bool_iff in Hc; congruence); lra]). split; [exact HX|].
  split; [intros x Hx; unfold ex_exp; rewrite (proj2 (Qle_bool_iff x 0)) by lra; rewrite Hx; reflexivity|].
  split; [apply (further _ 1 0 2 (1%Z, 2%Z, 1)); [cbn; tauto|reflexivity|]; apply (further _ 0 0 1 (0%Z, 1%Z, 1)); [cbn; tauto|reflexivity|apply here]|].
  split; [|intros i c Hi Hc; destruct i as [|[|[|i]]]; [| | |lia]; (destruct c as [|[|c]]; [| |lia]); vm_compute; split; discriminate].
  intros H. inversion H as [|r j i e He Hd Hw Er Ej Ei]; subst. cbn in He. repeat (destruct He as [<-|He]; [first [discriminate Hd|inversion Hw]|]). destruct He.
Qed.
(* symmetric normalisation leaves the range of the values: a node can gain from its neighbours *)
Theorem C105_symmetric_range_refuted : exists rsqrt tiny d p, 0 < tiny <= 1 /\ same_value rsqrt /\ rsqrt 1 == 1 /\ rsqrt 4 * rsqrt 4 == 1 / 4 /\ symmetric (weighted d) /\
  prepare_data rsqrt tiny d false NormSym = Ok p /\ in_box 4 1 (fun _ => 0) (fun _ => 1) (entry (nd_X d)) /\ (3 # 2) < entry (propagate 1 4 1 (pp_E p) (nd_X d)) 0 0.
Proof.
  set (rs := fun x : Q => if Qeq_bool x 4 then 1 / 2 else 1).
  set (d := {| nd_X := [[1]; [1]; [1]; [1]]; nd_width := 1; nd_y := [0; 1; 0; 0]%Z; nd_edges := [(0, 0); (1, 0); (2, 0); (3, 0); (0, 1); (0, 2); (0, 3)]%Z; nd_weight := None; nd_train := Some [true; true; true; true]; nd_val := None; nd_test := None; nd_unlabeled := None |}).
  exists rs, ex_tiny, d, (match prepare_data rs ex_tiny d false NormSym with Ok p => p | Err _ => {| pp_X := []; pp_y := []; pp_E := []; pp_train := []; pp_val := None; pp_n := 0; pp_classes := 0 |} end).
  split; [vm_compute; split; [reflexivity|discriminate]|]. split; [intros x y H; unfold rs; destruct (Qeq_bool x 4) eqn:E1, (Qeq_bool y 4) eqn:E2; try reflexivity; [apply Qeq_bool_iff in E1; apply Qeq_bool_neq in E2; exfalso; apply E2; rewrite <- H; exact E1|apply Qeq_bool_iff in E2; apply Qeq_bool_neq in E1; exfalso; apply E1; rewrite H; exact E2]|]. split; [reflexivity|]. split; [reflexivity|]. split.
  { intros i j. destruct i as [|[|[|[|i]]]], j as [|[|[|[|j]]]]; try reflexivity; rewrite !no_edge_weight; try reflexivity; intros e He [H1 H2]; cbn in He; repeat (destruct He as [<-|He]; [unfold e_dst, e_src in *; cbn [fst snd] in *; lia|]); destruct He. }
  split; [vm_compute; reflexivity|]. split; [|vm_compute; reflexivity]. intros i c Hi Hc. destruct c as [|c]; [|lia]. destruct i as [|[|[|[|i]]]]; try lia; vm_compute; split; discriminate.
Qed.
Print Assumptions C105_reach. Print Assumptions C105_bounds. Print Assumptions C105_appnp. Print Assumptions C105_attention. Print Assumptions C105_symmetric_range_refuted.

(* ---- C106: training *)
Section Training.
Variables W Op G : Type.
Variable step : W -> Op -> G -> list (nat * Z) -> W * Op * G.
Variable val_loss : W -> list (nat * Z) -> option Q.
(* every epoch is one step on the rows of the training nodes.  Without validation nodes all epochs run and the last weights stay.
   With them, training stops at the first epoch with [patience] epochs since the best one, and the weights of the best epoch stay. *)
Theorem C106_training opt classes y train val max_epochs patience w g r : train_fullbatch W Op G step val_loss opt classes y train val max_epochs patience w g = Ok r ->
  exists rows vrows, rows_of train y rows /\ validation_rows val y vrows /\
    match vrows with
    | None => let s := after step rows (w, opt w, g) (Z.to_nat max_epochs) in tr_epochs r = max_epochs /\ tr_best r = None /\ tr_weights r = weights_of s /\ tr_gen r = snd s
    | Some vr => let v e := val_loss (weights_of (after step rows (w, opt w, g) (S e))) vr in
        exists n b, stops_after (fun _ => True) v patience max_epochs n /\ kept (fun _ => True) v (n - 1) (Some b) /\ tr_epochs r = Z.of_nat n /\ tr_best r = Some (Z.of_nat b, v b) /\
          tr_weights r = weights_of (after step rows (w, opt w, g) (S b)) /\ tr_gen r = snd (after step rows (w, opt w, g) n)
    end.
Proof.
  unfold train_fullbatch. destruct (Z.leb_spec max_epochs 0) as [|Hm]; [discriminate|]. destruct (bad_target classes (shown train y)); [discriminate|]. assert (HV := val_rows_spec val y). destruct (val_rows val y) as [vr|].
  - destruct (bad_target classes vr); [discriminate|]. intros [= <-]. exists (shown train y), (Some vr). split; [apply shown_rows|]. split; [exact HV|].
    destruct (loop_val W Op G step val_loss (fun _ => True) (fun _ => true) ltac:(tauto) (shown train y) vr (w, opt w, g) patience (Z.to_nat max_epochs) 0 None 0) as (n & o & Hst & Hk & He); [split; reflexivity|lia|].
    change (after step (shown train y) (w, opt w, g) 0) with (w, opt w, g) in He. change (Z.of_nat 0) with 0%Z in He. rewrite He. destruct (kept_some _ _ _ Hk) as (b & ->). exists n, b. rewrite Nat.add_0_l, Z2Nat.id in Hst by lia. split; [exact Hst|]. split; [exact Hk|]. cbn. now repeat split.
  - intros [= <-]. exists (shown train y), None. split; [apply shown_rows|]. split; [exact HV|]. assert (He := loop_noval W Op G step val_loss (fun _ => true) (shown train y) (w, opt w, g) patience (Z.to_nat max_epochs) 0 None 0). change (after step (shown train y) (w, opt w, g) 0) with (w, opt w, g) in He. change (Z.of_nat 0) with 0%Z in He. rewrite He, Nat.add_0_l. cbn. rewrite Z2Nat.id by lia. now repeat split.
Qed.
(* when no validation loss is NaN, the kept weights have the lowest loss seen, up to 1e-9, and no earlier epoch was as good *)
Theorem C106_best opt classes y train val max_epochs patience w g r b l rows vrows : train_fullbatch W Op G step val_loss opt classes y train val max_epochs patience w g = Ok r -> tr_best r = Some (b, l) ->
  rows_of train y rows -> validation_rows val y (Some vrows) ->
  let v e := val_loss (weights_of (after step rows (w, opt w, g) (S e))) vrows in
  (forall e, (Z.of_nat e < tr_epochs r)%Z -> v e <> None) ->
  exists x, l = Some x /\ val_loss (tr_weights r) vrows = Some x /\ (0 <= b < tr_epochs r)%Z /\ v (Z.to_nat b) = Some x /\
    (forall e q, (Z.of_nat e < tr_epochs r)%Z -> v e = Some q -> x <= q + (1 # 1000000000)) /\ (forall e q, (Z.of_nat e < b)%Z -> v e = Some q -> x < q).
Proof.
  intros H Hb Hr Hv v HN. destruct (C106_training _ _ _ _ _ _ _ _ _ _ H) as (rows' & vrows' & Hr' & Hv' & HM).
  assert (HU : forall m rs rs', rows_of m y rs -> rows_of m y rs' -> rs = rs').
  { intros m rs rs' [S1 I1] [S2 I2]. assert (HF : map fst rs = map fst rs').
    { assert (Hin : forall q rs, rows_of m y rs -> (In q (map fst rs) <-> (q < List.length y)%nat /\ nth q m false = true)) by (intros q rs0 [_ I0]; rewrite in_map_iff; split; [intros ([i v0] & <- & Hi); apply I0 in Hi; cbn; tauto|intros [Hq Hm]; exists (q, nth q y (-1)%Z); split; [reflexivity|]; apply I0; auto]).
      assert (Hsame : forall q, In q (map fst rs) <-> In q (map fst rs')) by (intros q; rewrite (Hin q rs (conj S1 I1)), (Hin q rs' (conj S2 I2)); reflexivity).
      clear -S1 S2 Hsame. revert S1 S2 Hsame. generalize (map fst rs), (map fst rs'). intros l1. induction l1 as [|a l1 IH]; intros [|b l2] S1 S2 Hs; [reflexivity|exfalso; apply (Hs b); now left|exfalso; apply (Hs a); now left|].
      apply StronglySorted_inv in S1 as [S1 F1]. apply StronglySorted_inv in S2 as [S2 F2]. rewrite Forall_forall in F1, F2.
      assert (a = b) by (destruct (proj1 (Hs a) (or_introl eq_refl)) as [E|E]; [congruence|]; destruct (proj2 (Hs b) (or_introl eq_refl)) as [E'|E']; [congruence|]; specialize (F2 a E); specialize (F1 b E'); lia). subst b. f_equal. apply IH; [exact S1|exact S2|]. intros q. split; intros Hq.
      - destruct (proj1 (Hs q) (or_intror Hq)) as [->|Hq']; [specialize (F1 q Hq); lia|exact Hq'].
      - destruct (proj2 (Hs q) (or_intror Hq)) as [->|Hq']; [specialize (F2 q Hq); lia|exact Hq']. }
    assert (HS : forall rs, rows_of m y rs -> rs = map (fun i => (i, nth i y (-1)%Z)) (map fst rs)) by (intros rs0 [_ I0]; rewrite map_map; rewrite <- (map_id rs0) at 1; apply map_ext_in; intros [i v0] Hi; apply I0 in Hi; cbn; f_equal; symmetry; tauto).
    rewrite (HS rs (conj S1 I1)), (HS rs' (conj S2 I2)), HF. reflexivity. }
  rewrite (HU train rows' rows Hr' Hr) in HM.
  assert (HVR : vrows' = Some vrows).
  { destruct val as [m|]; [|discriminate Hv]. cbn [validation_rows] in Hv, Hv'. destruct Hv as [[(i & Hi) (q & [= <-] & Hq)]|[_ Hx]]; [|discriminate Hx]. destruct Hv' as [[_ (q' & -> & Hq')]|[Hno _]]; [f_equal; apply (HU m); assumption|rewrite Hno in Hi; discriminate]. }
  rewrite HVR in HM. cbv zeta in HM. fold v in HM. destruct HM as (n & b0 & Hst & Hk & Hne & Htb & Hwt & _). rewrite Hb in Htb. injection Htb as -> ->.
  destruct Hst as (Hn0 & _). assert (Hkb := kept_bound _ _ _ _ Hk). destruct (kept_best v (n - 1) b0 Hk) as (x & Hx & H1 & H2); [intros a Ha; apply HN; lia|]. exists x. split; [exact Hx|]. split; [rewrite Hwt; exact Hx|]. split; [lia|]. split; [rewrite Nat2Z.id; exact Hx|]. split; [intros e q He Hq; apply (H1 e q); [lia|exact Hq]|intros e q He Hq; apply (H2 e q); [lia|exact Hq]].
Qed.
(* GRAND: the same, but a NaN is never the best loss, and no epoch at all leaves the initial weights *)
Theorem C106_grand opt classes y train val max_epochs patience w g r : grand_train W Op G step val_loss opt classes y train val max_epochs patience w g = Ok r ->
  exists rows vrows, rows_of train y rows /\ validation_rows val y vrows /\
    let s e := after step rows (w, opt w, g) e in
    match vrows with
    | None => tr_epochs r = Z.max 0 max_epochs /\ tr_best r = None /\ tr_weights r = weights_of (s (Z.to_nat max_epochs))
    | Some vr => let v e := val_loss (weights_of (s (S e))) vr in
        ((max_epochs <= 0)%Z /\ tr_epochs r = 0%Z /\ tr_best r = None /\ tr_weights r = w) \/
        exists n o, stops_after (fun l => exists x, l = Some x) v patience max_epochs n /\ kept (fun l => exists x, l = Some x) v (n - 1) o /\ tr_epochs r = Z.of_nat n /\
          match o with Some b => tr_best r = Some (Z.of_nat b, v b) /\ (exists x, v b = Some x) /\ tr_weights r = weights_of (s (S b)) | None => tr_best r = None /\ tr_weights r = weights_of (s n) end
    end.
Proof.
  unfold grand_train. destruct ((0 <? max_epochs)%Z && _); [discriminate|]. intros [= <-]. assert (HV := val_rows_spec val y). destruct (val_rows val y) as [vr|].
  - exists (shown train y), (Some vr). split; [apply shown_rows|]. split; [exact HV|]. cbv zeta iota. set (v := fun e => val_loss (weights_of (after step (shown train y) (w, opt w, g) (S e))) vr). destruct (Z.leb_spec max_epochs 0) as [Hm|Hm].
    + left. split; [exact Hm|]. replace (Z.to_nat max_epochs) with 0%nat by lia. cbn. now repeat split.
    + right. destruct (loop_val W Op G step val_loss (fun l => exists x, l = Some x) (fun v => match v with Some _ => true | None => false end) ltac:(intros [q|]; split; [eauto|reflexivity|discriminate|intros [? [=]]]) (shown train y) vr (w, opt w, g) patience (Z.to_nat max_epochs) 0 None 0) as (n & o & Hst & Hk & He); [split; reflexivity|lia|].
      change (after step (shown train y) (w, opt w, g) 0) with (w, opt w, g) in He. change (Z.of_nat 0) with 0%Z in He. rewrite He. exists n, o. rewrite Nat.add_0_l, Z2Nat.id in Hst by lia. split; [exact Hst|]. split; [exact Hk|]. split; [destruct o; reflexivity|]. destruct o as [b|]; [|split; reflexivity]. cbn. split; [reflexivity|]. split; [|reflexivity]. change (exists x, v b = Some x).
      assert (HG : forall e o, kept (fun l => exists x, l = Some x) v e o -> forall b, o = Some b -> exists x, v b = Some x).
      { clear. intros e o H. induction H as [H|H|e H IH Hc|e H IH Hc|e b H IH Hc|e b H IH Hc]; intros b' [= <-]; auto. destruct Hc as (x & q & Hx & _). now exists x. }
      apply (HG _ _ Hk b eq_refl).
  - exists (shown train y), None. split; [apply shown_rows|]. split; [exact HV|]. cbv zeta iota. assert (He := loop_noval W Op G step val_loss (fun v => match v with Some _ => true | None => false end) (shown train y) (w, opt w, g) patience (Z.to_nat max_epochs) 0 None 0). change (after step (shown train y) (w, opt w, g) 0) with (w, opt w, g) in He. change (Z.of_nat 0) with 0%Z in He. rewrite He, Nat.add_0_l. cbn. split; [lia|]. now split.
Qed.
End Training.
Section Methods.
Variables W Op G : Type.
Variables (rsqrt : Q -> Q) (tiny : Q) (init : nat -> Z -> G -> W * G) (seeded : Z -> G) (opt : W -> Op) (step : gnn_inputs -> W -> Op -> G -> list (nat * Z) -> W * Op * G) (val_loss : gnn_inputs -> W -> list (nat * Z) -> option Q).
Local Notation fit := (gnn_fit W Op G rsqrt tiny init seeded opt step val_loss).
(* a fit returns exactly when the data set is accepted, an epoch runs, and the nodes used have labels the loss accepts *)
Theorem C106_returns sp seed d g : (exists r, fit sp seed d g = Ok r) <->
  usable d /\ (0 < gs_max_epochs sp)%Z /\
  (forall m i, nd_train d = Some m \/ nd_val d = Some m -> (i < List.length (nd_y d))%nat -> nth i m false = true -> (0 <= nth i (nd_y d) (-1))%Z \/ nth i (nd_y d) (-1)%Z = (-100)%Z).
Proof.
  unfold gnn_fit. destruct (prepare_data rsqrt tiny d (gs_loops sp) (gs_mode sp)) as [p|e] eqn:Ep; cbn [bind].
  2:{ split; [intros [r Hr]; discriminate Hr|]. intros (Hu & _). apply (C104_returns rsqrt tiny d (gs_loops sp) (gs_mode sp)) in Hu as [p Hp]. congruence. }
  apply prepare_ok in Ep as (Hu & train & Ht & ->). cbn [prepared_of pp_classes pp_y pp_train pp_val]. destruct (init _ _ g) as [w g']. unfold train_fullbatch.
  assert (HB : forall m, bad_target (count_classes (nd_y d)) (shown m (nd_y d)) = false <-> forall i, (i < List.length (nd_y d))%nat -> nth i m false = true -> (0 <= nth i (nd_y d) (-1))%Z \/ nth i (nd_y d) (-1)%Z = (-100)%Z).
  { intros m. rewrite bad_target_iff. destruct (shown_rows m (nd_y d)) as [_ HI]. split.
    - intros H i Hi Hm. destruct (H i (nth i (nd_y d) (-1)%Z)) as [H0|H0]; [apply HI; auto|left; lia|right; exact H0].
    - intros H i v Hin. apply HI in Hin as (Hi & Hm & <-). destruct (H i Hi Hm) as [H0|H0]; [left|right; exact H0]. split; [exact H0|]. apply count_classes_bound, nth_In, Hi. }
  destruct (Z.leb_spec (gs_max_epochs sp) 0) as [Hm|Hm]; [split; [intros [r Hr]; discriminate Hr|intros (_ & H0 & _); lia]|].
  destruct (bad_target (count_classes (nd_y d)) (shown train (nd_y d))) eqn:E1.
  { split; [intros [r Hr]; discriminate Hr|]. intros (_ & _ & HA). enough (bad_target (count_classes (nd_y d)) (shown train (nd_y d)) = false) by congruence. apply HB. intros i Hi Hmi. apply (HA train i); auto. }
  rewrite HB in E1. unfold val_rows. destruct (nd_val d) as [m|] eqn:Ev; [destruct (existsb (fun b => b) m) eqn:Ex|].
  - destruct (bad_target (count_classes (nd_y d)) (shown m (nd_y d))) eqn:E2.
    + split; [intros [r Hr]; discriminate Hr|]. intros (_ & _ & HA). enough (bad_target (count_classes (nd_y d)) (shown m (nd_y d)) = false) by congruence. apply HB. intros i Hi Hmi. apply (HA m i); auto.
    + rewrite HB in E2. split; [intros _|intros _; eexists; reflexivity]. split; [exact Hu|]. split; [exact Hm|]. intros m' i [Hm'|Hm'] Hi Hmi; [rewrite Ht in Hm'; injection Hm' as <-; auto|injection Hm' as <-; auto].
  - split; [intros _|intros _; eexists; reflexivity]. split; [exact Hu|]. split; [exact Hm|]. intros m' i [Hm'|Hm'] Hi Hmi; [rewrite Ht in Hm'; injection Hm' as <-; auto|injection Hm' as <-]. exfalso. assert (existsb (fun b : bool => b) m = true) by (apply exists_true; eauto). congruence.
  - split; [intros _|intros _; eexists; reflexivity]. split; [exact Hu|]. split; [exact Hm|]. intros m' i [Hm'|Hm'] Hi Hmi; [rewrite Ht in Hm'; injection Hm' as <-; auto|discriminate].
Qed.
(* the labels of nodes outside the training and validation masks are not used, as long as the largest label stays *)
Theorem C106_hidden_labels sp seed d y' g m : usable d ->
  let d' := {| nd_X := nd_X d; nd_width := nd_width d; nd_y := y'; nd_edges := nd_edges d; nd_weight := nd_weight d; nd_train := nd_train d; nd_val := nd_val d; nd_test := nd_test d; nd_unlabeled := nd_unlabeled d |} in
  usable d' -> nd_train d = Some m -> same_shown m (nd_y d) y' -> (forall m, nd_val d = Some m -> same_shown m (nd_y d) y') ->
  (forall v, In v (nd_y d) -> exists v', In v' y' /\ (v <= v')%Z) -> (forall v, In v y' -> exists v', In v' (nd_y d) /\ (v <= v')%Z) ->
  fit sp seed d g = fit sp seed d' g.
Proof.
  intros Hu d' Hu' Htr Hs Hsv H1 H2. assert (HL : List.length (nd_y d) = List.length y') by (transitivity (List.length (nd_X d)); [symmetry; apply Hu|apply Hu']).
  assert (HC : count_classes (nd_y d) = count_classes y').
  { assert (HM : forall a b, List.length a = List.length b -> (forall v, In v a -> exists v', In v' b /\ (v <= v')%Z) -> (count_classes a <= count_classes b)%Z).
    { intros [|a r] [|b r'] Hl H; [cbn; lia|discriminate|discriminate|]. cbn [count_classes]. assert (HX : forall l q, In (fold_right Z.max q l) (q :: l)) by (induction l as [|z l IH]; intros q; [now left|]; cbn [fold_right]; destruct (Z.max_spec z (fold_right Z.max q l)) as [[_ ->]|[_ ->]]; [destruct (IH q) as [E|E]; [now left|right; now right]|right; now left]). destruct (H _ (HX r a)) as (v' & Hv' & Hle). apply (count_classes_bound (b :: r')) in Hv'. cbn [count_classes] in Hv'. lia. }
    apply Z.le_antisymm; [apply HM; assumption|apply HM; [now symmetry|assumption]]. }
  unfold gnn_fit. rewrite (proj2 (prepare_ok rsqrt tiny d (gs_loops sp) (gs_mode sp) _) (conj Hu (ex_intro _ m (conj Htr eq_refl)))). rewrite (proj2 (prepare_ok rsqrt tiny d' (gs_loops sp) (gs_mode sp) _) (conj Hu' (ex_intro _ m (conj Htr eq_refl)))). cbn [bind]. cbn [prepared_of pp_classes pp_y pp_train pp_val d' nd_y nd_width nd_val].
  change (inputs_of (prepared_of rsqrt tiny d' (gs_loops sp) (gs_mode sp) m)) with (inputs_of (prepared_of rsqrt tiny d (gs_loops sp) (gs_mode sp) m)). rewrite <- HC. destruct (init _ _ g) as [w g']. unfold train_fullbatch. rewrite (shown_same m _ _ HL Hs).
  assert (HV : val_rows (nd_val d) (nd_y d) = val_rows (nd_val d) y') by (unfold val_rows; destruct (nd_val d) as [mv|]; [|reflexivity]; destruct (existsb (fun b => b) mv); [|reflexivity]; f_equal; apply shown_same; [exact HL|apply Hsv; reflexivity]). rewrite HV. reflexivity.
Qed.
(* ---- C107: what a fit depends on *)
(* the global generator matters only through the initial weights; it ends in the same state *)
Theorem C107_generator sp seed d g g' : (forall width classes, fst (init width classes g) = fst (init width classes g')) -> fit sp seed d g = fit sp seed d g'.
Proof.
  intros H. unfold gnn_fit. destruct (prepare_data rsqrt tiny d (gs_loops sp) (gs_mode sp)) as [p|e]; cbn [bind]; [|reflexivity]. specialize (H (nd_width d) (pp_classes p)). destruct (init (nd_width d) (pp_classes p) g) as [w k], (init (nd_width d) (pp_classes p) g') as [w' k']. cbn [fst] in H. now rewrite H.
Qed.
(* SGC on the data set it was fitted on: softmax of the linear layer on the propagated features *)
Theorem C107_sgc k sp seed d g st g' softmax linear : sgc_fit W Op G rsqrt tiny init seeded opt step val_loss k sp seed d g = Ok (st, g') ->
  exists p, prepare_data rsqrt tiny d (gs_loops sp) NormSym = Ok p /\
  sgc_predict W rsqrt tiny softmax linear sp st d = Ok (map (fun r => softmax (linear (sg_w st) r)) (propagate k (List.length (nd_X d)) (nd_width d) (pp_E p) (nd_X d))).
Proof.
  unfold sgc_fit, sgc_predict. destruct (prepare_data rsqrt tiny d (gs_loops sp) NormSym) as [p|e] eqn:Ep; cbn [bind]; [|discriminate]. destruct (init _ _ g) as [w g0]. destruct (train_fullbatch _ _ _ _ _ _ _ _ _ _ _ _ _ _) as [r|e] eqn:Et; cbn [bind]; [|discriminate]. intros [= <- <-]. cbn [sg_n sg_X sg_w]. rewrite Z.eqb_refl. cbn [negb]. exists p. split; [reflexivity|].
  destruct (C104_parts _ _ _ _ _ _ Ep) as (HX & _ & _ & _ & Hn & _). rewrite HX, Hn. unfold lenZ. rewrite Nat2Z.id. reflexivity.
Qed.
(* as long as nothing is changed in place, the identity cache returns what a fresh preparation would *)
Theorem C107_cache calls : (forall a b, In a calls -> In b calls -> unchanged (fst (fst (fst a))) (fst (fst (fst b)))) ->
  prep_calls rsqrt tiny None calls = map (fun c : prep_call => let '(h, d, loops, mode) := c in prepare_data rsqrt tiny (read_data h d) loops mode) calls.
Proof. intros H. apply (calls_fresh rsqrt tiny calls None []); [|exact I]. cbn [app]. intros h Hh h' Hh'. apply in_map_iff in Hh as (a & <- & Ha). apply in_map_iff in Hh' as (b & <- & Hb). apply H; assumption. Qed.
End Methods.
(* ---- concrete runs.  Weights and generator are numbers; a step adds the generator's number to the weights. *)
Definition ex_spec : gnn_spec := {| gs_loops := true; gs_mode := NormRw; gs_max_epochs := 10; gs_patience := 2 |}.
Definition ex_init (_ : nat) (_ : Z) (g : Z) : Z * Z := (g, (g + 1)%Z).
Definition ex_step (_ : gnn_inputs) (w _ g : Z) (rows : list (nat * Z)) : Z * Z * Z := ((w + 1)%Z, 0%Z, g).
Definition ex_losses (l : list (option Q)) (_ : gnn_inputs) (w : Z) (_ : list (nat * Z)) : option Q := nth (Z.to_nat w - 1) l None.
Definition ex_fit (l : list (option Q)) (sp : gnn_spec) (d : node_data) (g : Z) := gnn_fit Z Z Z ex_rsqrt ex_tiny ex_init (fun s => s) (fun w => w) ex_step (ex_losses l) sp 5%Z d g.
Definition ex_train_data := ex_data [0; 1; 0]%Z [true; true; false] (Some [false; false; true]) None.
Example C106_hypotheses :
  match ex_fit [Some 3; Some 2; Some 1; Some 2; Some 2; Some 0] ex_spec ex_train_data 0%Z with
  | Ok r => tr_epochs r = 5%Z /\ tr_best r = Some (2%Z, Some 1) /\ tr_weights r = 3%Z
  | Err _ => False
  end /\ usable (ex_data [0; 1; 0]%Z [true; true; false] None None) /\ usable (ex_data [0; 1; 1]%Z [true; true; false] None None) /\ same_shown [true; true; false] [0; 1; 0]%Z [0; 1; 1]%Z.
Proof.
  split; [vm_compute; now repeat split|]. split; [|split]; [| |intros [|[|[|[|i]]]] H; try reflexivity; discriminate]; (eapply (proj1 (C104_returns ex_rsqrt ex_tiny _ true NormRw)); eexists; vm_compute; reflexivity).
Qed.
(* max_epochs = 0 is not refused but fails with an unbound variable *)
Theorem C106_no_epochs_refuted : exists d sp, usable d /\ gs_max_epochs sp = 0%Z /\ ex_fit [] sp d 0%Z = Err UnboundLocalError.
Proof. exists ex_train_data, {| gs_loops := true; gs_mode := NormRw; gs_max_epochs := 0; gs_patience := 2 |}. split; [exact ex_usable|]. split; [reflexivity|vm_compute; reflexivity]. Qed.
(* if the first validation loss is NaN, its weights are returned, however good later epochs are *)
Theorem C106_nan_refuted : exists d l r, usable d /\ ex_fit l ex_spec d 0%Z = Ok r /\ tr_best r = Some (0%Z, None) /\ tr_weights r = 1%Z /\ tr_epochs r = 3%Z /\ nth 1 l None = Some 1 /\ nth 2 l None = Some (1 # 2).
Proof.
  exists ex_train_data, [None; Some 1; Some (1 # 2); Some (1 # 4)], {| tr_epochs := 3; tr_best := Some (0%Z, None); tr_weights := 1%Z; tr_gen := 5%Z |}.
  split; [exact ex_usable|]. split; [vm_compute; reflexivity|]. now repeat split.
Qed.
(* a training mask that selects nothing is accepted: every epoch steps on the loss of no rows *)
Theorem C106_empty_training_refuted : exists d r, usable d /\ nd_train d = Some [false; false; false] /\ ex_fit [] ex_spec d 0%Z = Ok r /\ tr_epochs r = 10%Z.
Proof.
  exists (ex_data [0; 1; 0]%Z [false; false; false] None None), {| tr_epochs := 10; tr_best := None; tr_weights := 10%Z; tr_gen := 5%Z |}.
  split; [eapply (proj1 (C104_returns ex_rsqrt ex_tiny _ true NormRw)); eexists; vm_compute; reflexivity|]. split; [reflexivity|]. split; [vm_compute; reflexivity|reflexivity].
Qed.
(* a label outside all masks changes the number of outputs when it is the largest *)
Theorem C106_hidden_class_refuted : exists init y y' train r r', usable (ex_data y train None None) /\ usable (ex_data y' train None None) /\ same_shown train y y' /\
  gnn_fit Z Z Z ex_rsqrt ex_tiny init (fun s => s) (fun w => w) ex_step (ex_losses []) ex_spec 5%Z (ex_data y train None None) 0%Z = Ok r /\
  gnn_fit Z Z Z ex_rsqrt ex_tiny init (fun s => s) (fun w => w) ex_step (ex_losses []) ex_spec 5%Z (ex_data y' train None None) 0%Z = Ok r' /\ tr_weights r <> tr_weights r'.
Proof.
  exists (fun _ classes g => (classes, g)), [0; 1; 0]%Z, [0; 1; 2]%Z, [true; true; false], {| tr_epochs := 10; tr_best := None; tr_weights := 12%Z; tr_gen := 5%Z |}, {| tr_epochs := 10; tr_best := None; tr_weights := 13%Z; tr_gen := 5%Z |}.
  split; [eapply (proj1 (C104_returns ex_rsqrt ex_tiny _ true NormRw)); eexists; vm_compute; reflexivity|]. split; [eapply (proj1 (C104_returns ex_rsqrt ex_tiny _ true NormRw)); eexists; vm_compute; reflexivity|].
  split; [intros [|[|[|[|i]]]] H; try reflexivity; discriminate|]. split; [vm_compute; reflexivity|]. split; [vm_compute; reflexivity|discriminate].
Qed.
(* the same seed does not give the same model: the layers are built before the generator is seeded *)
Theorem C107_seed_refuted : exists d g g' r r', usable d /\ ex_fit [] ex_spec d g = Ok r /\ ex_fit [] ex_spec d g' = Ok r' /\ tr_weights r <> tr_weights r' /\ tr_gen r = tr_gen r'.
Proof.
  exists (ex_data [0; 1; 0]%Z [true; true; false] None None), 0%Z, 7%Z, {| tr_epochs := 10; tr_best := None; tr_weights := 10%Z; tr_gen := 5%Z |}, {| tr_epochs := 10; tr_best := None; tr_weights := 17%Z; tr_gen := 5%Z |}.
  split; [eapply (proj1 (C104_returns ex_rsqrt ex_tiny _ true NormRw)); eexists; vm_compute; reflexivity|]. split; [vm_compute; reflexivity|]. split; [vm_compute; reflexivity|]. split; [discriminate|reflexivity].
Qed.
(* a mask replaced inside the masks dictionary is not seen: the second call trains on the old one *)
Definition ex_heap (train : list bool) : heap :=
  {| h_data := fun _ => {| ob_X := 1; ob_y := 2; ob_graph := 3; ob_masks := 4 |}; h_graph := fun _ => {| ob_edges := 5; ob_weight := 6 |};
     h_masks := fun _ => {| mk_train := Some train; mk_val := None; mk_test := None; mk_unlabeled := None |};
     h_X := fun _ => ([[1]; [0]], 1%nat); h_y := fun _ => [0; 1]%Z; h_edges := fun _ => [(0, 1); (1, 0)]%Z; h_weight := fun _ => None |}.
Example C107_hypotheses : unchanged (ex_heap [true; true]) (ex_heap [true; true]) /\ usable (read_data (ex_heap [true; true]) 0) /\ (forall width classes, fst (ex_init width classes 3%Z) = fst (ex_init width classes 3%Z)).
Proof. split; [repeat split|]. split; [|reflexivity]. eapply (proj1 (C104_returns ex_rsqrt ex_tiny _ true NormRw)). eexists. vm_compute. reflexivity. Qed.
Theorem C107_cache_refuted : exists h h' p, usable (read_data h 0) /\ usable (read_data h' 0) /\ nd_train (read_data h' 0) = Some [true; false] /\
  prep_calls ex_rsqrt ex_tiny None [(h, 0%Z, true, NormRw); (h', 0%Z, true, NormRw)] = [Ok p; Ok p] /\ pp_train p = [true; true].
Proof.
  exists (ex_heap [true; true]), (ex_heap [true; false]), (prepared_of ex_rsqrt ex_tiny (read_data (ex_heap [true; true]) 0) true NormRw [true; true]).
  split; [eapply (proj1 (C104_returns ex_rsqrt ex_tiny _ true NormRw)); eexists; vm_compute; reflexivity|]. split; [eapply (proj1 (C104_returns ex_rsqrt ex_tiny _ true NormRw)); eexists; vm_compute; reflexivity|]. split; [reflexivity|]. split; vm_compute; reflexivity.
Qed.
(* SGC answers with the features it was fitted on: other features with the same number of nodes change nothing *)
Theorem C107_sgc_features_refuted : exists d d' st, usable d /\ usable d' /\ nd_X d <> nd_X d' /\
  (forall (softmax : list Q -> list Q) linear, sgc_predict Z ex_rsqrt ex_tiny softmax linear ex_spec st d = sgc_predict Z ex_rsqrt ex_tiny softmax linear ex_spec st d') /\
  exists g', sgc_fit Z Z Z ex_rsqrt ex_tiny ex_init (fun s => s) (fun w => w) ex_step (ex_losses []) 1 ex_spec 5%Z d 0%Z = Ok (st, g').
Proof.
  set (d := read_data (ex_heap [true; true]) 0). set (d' := {| nd_X := [[5]; [7]]; nd_width := 1; nd_y := [0; 1]%Z; nd_edges := [(0, 1); (1, 0)]%Z; nd_weight := None; nd_train := Some [true; true]; nd_val := None; nd_test := None; nd_unlabeled := None |}).
  assert (Hu : usable d) by (eapply (proj1 (C104_returns ex_rsqrt ex_tiny _ true NormRw)); eexists; vm_compute; reflexivity). assert (Hu' : usable d') by (eapply (proj1 (C104_returns ex_rsqrt ex_tiny _ true NormRw)); eexists; vm_compute; reflexivity).
  destruct (sgc_fit Z Z Z ex_rsqrt ex_tiny ex_init (fun s => s) (fun w => w) ex_step (ex_losses []) 1 ex_spec 5%Z d 0%Z) as [[st g']|e] eqn:Ef; [|vm_compute in Ef; discriminate Ef].
  exists d, d', st. split; [exact Hu|]. split; [exact Hu'|]. split; [discriminate|]. split; [|now exists g']. intros softmax linear. unfold sgc_predict.
  rewrite (proj2 (prepare_ok ex_rsqrt ex_tiny d (gs_loops ex_spec) NormSym _) (conj Hu (ex_intro _ [true; true] (conj eq_refl eq_refl)))), (proj2 (prepare_ok ex_rsqrt ex_tiny d' (gs_loops ex_spec) NormSym _) (conj Hu' (ex_intro _ [true; true] (conj eq_refl eq_refl)))). reflexivity.
Qed.
Print Assumptions C106_training. Print Assumptions C106_best. Print Assumptions C106_grand. Print Assumptions C106_returns. Print Assumptions C106_hidden_labels. Print Assumptions C106_no_epochs_refuted. Print Assumptions C106_nan_refuted. Print Assumptions C106_empty_training_refuted. Print Assumptions C106_hidden_class_refuted.
Print Assumptions C107_generator. Print Assumptions C107_sgc. Print Assumptions C107_cache. Print Assumptions C107_seed_refuted. Print Assumptions C107_cache_refuted. Print Assumptions C107_sgc_features_refuted.
