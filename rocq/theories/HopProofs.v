(* Distances, hop edges and their averages. *)
From Coq Require Import QArith Qminmax Lia Lqa Permutation.
From Coq Require Import ZifyBool ZifyNat.
From Verif Require Import Prelude ListFacts QFacts TransModel TransSpec TransProofs GnnModel HopModel HopSpec N2vProofs N2vTrainProofs.
Local Open Scope Z_scope.
Local Open Scope list_scope.
Local Notation length := List.length.

Section Rings.
Variables (edges : list (Z * Z)) (n : Z) (sym : bool).
Notation adj := (adj_list edges n sym).
Notation link := (linked edges n sym).
Lemma path_range i k j : 0 <= i < n -> path link i k j -> 0 <= j < n.
Proof using Type. intros Hi H. destruct H as [|k v j _ (_ & H & _)]; assumption. Qed.
Lemma in_flat_map_nbrs i j : 0 <= i < n -> (In j (nth (Z.to_nat i) adj []) <-> link i j).
Proof using Type. intros Hi. apply (build_In edges n sym i j Hi). Qed.
Lemma next_ring_iff i h visited frontier : 0 <= i < n -> (forall u, In u visited <-> exists k, (k <= h)%nat /\ path link i k u) -> (forall u, In u frontier <-> distance link i u h) ->
  ring link i (S h) (next_ring adj visited frontier).
Proof using Type.
  intros Hi HV HF. unfold next_ring. split; [apply NoDup_filter, uniqueZ_NoDup|]. intros u. rewrite filter_In, uniqueZ_In, in_flat_map, negb_true_iff. split.
  - intros [(v & Hv & Hu) NV]. apply HF in Hv as [P Pm]. rewrite in_flat_map_nbrs in Hu by (eapply path_range; eassumption). split; [econstructor; eassumption|].
    intros k Hk Pk. assert (In u visited) as IV by (apply HV; exists k; split; [lia|exact Pk]). apply memZ_In in IV. congruence.
  - intros [P Pm]. inversion P as [|k v j Pv L E1 E2]; subst. split.
    + exists v. split; [|apply in_flat_map_nbrs; [eapply path_range; eassumption|exact L]]. apply HF. split; [exact Pv|]. intros k Hk Pk. apply (Pm (S k)); [lia|]. econstructor; eassumption.
    + destruct (memZ u visited) eqn:E; [|reflexivity]. apply memZ_In, HV in E as (k & Hk & Pk). exfalso. apply (Pm k); [lia|exact Pk].
Qed.
Lemma rings_iff i : 0 <= i < n -> forall hops h visited frontier, (forall u, In u visited <-> exists k, (k <= h)%nat /\ path link i k u) -> (forall u, In u frontier <-> distance link i u h) ->
  forall m, (m < hops)%nat -> ring link i (S (h + m)) (nth m (rings adj hops visited frontier) []).
Proof using Type.
  intros Hi. induction hops as [|hops IH]; intros h visited frontier HV HF m Hm; [lia|]. cbn [rings]. pose proof (next_ring_iff i h visited frontier Hi HV HF) as NR. destruct m as [|m]; cbn [nth]; [rewrite Nat.add_0_r; exact NR|].
  replace (S (h + S m)) with (S (S h + m)) by lia. apply IH; [|intros u; apply NR|lia]. intros u. rewrite in_app_iff, HV. destruct NR as [_ NR]. rewrite NR. split.
  - intros [(k & Hk & P)|[P _]]; [exists k; split; [lia|exact P]|exists (S h); split; [lia|exact P]].
  - intros (k & Hk & P). destruct (Nat.eq_dec k (S h)) as [->|Hne]; [|left; exists k; split; [lia|exact P]].
    destruct (memZ u visited) eqn:E; [left; apply HV, memZ_In; exact E|right; split; [exact P|]]. intros k' Hk' P'. assert (In u visited) as IV by (apply HV; exists k'; split; [lia|exact P']). apply memZ_In in IV. congruence.
Qed.
Lemma ring_at i hops h : 0 <= i < n -> (h < hops)%nat -> ring link i (S h) (nth h (rings adj hops [i] [i]) []).
Proof using Type.
  intros Hi Hh. apply (rings_iff i Hi hops 0 [i] [i]); [| |exact Hh]; intros u; cbn [In]; split.
  - intros [<-|[]]. exists 0%nat. split; [lia|constructor].
  - intros (k & Hk & P). left. assert (k = 0)%nat as -> by lia. inversion P. reflexivity.
  - intros [<-|[]]. split; [constructor|]. intros k' Hk'; lia.
  - intros [P _]. left. inversion P. reflexivity.
Qed.
Lemma hop_edges_iff hops h u i : (h < hops)%nat -> (In (u, i) (hop_edges adj n hops h) <-> 0 <= i < n /\ distance link i u (S h)).
Proof using Type.
  intros Hh. unfold hop_edges. rewrite in_flat_map. split.
  - intros (j & Hj & Hu). apply in_map_iff in Hu as (v & [= -> ->] & Hv). apply arange_In in Hj. split; [exact Hj|]. apply (ring_at i hops h Hj Hh), Hv.
  - intros [Hi D]. exists i. split; [apply arange_In, Hi|]. apply in_map_iff. exists u. split; [reflexivity|]. apply (ring_at i hops h Hi Hh), D.
Qed.
Lemma hop_edges_nodup hops h : (h < hops)%nat -> NoDup (hop_edges adj n hops h).
Proof using Type.
  intros Hh. unfold hop_edges. apply NoDup_flat_map; [apply arange_NoDup| |].
  - intros i Hi. apply arange_In in Hi. apply NoDup_map_inj; [intros a b [= E]; exact E|]. apply (ring_at i hops h Hi Hh).
  - intros i j e Hi Hj He1 He2. apply in_map_iff in He1 as (a & <- & _). apply in_map_iff in He2 as (b & [= _ E] & _). symmetry. exact E.
Qed.
(* the edges of one hop that arrive at i *)
Lemma filter_arrive (g : Z -> list Z) i l : NoDup l -> filter (fun e : Z * Z => snd e =? i) (flat_map (fun j => map (fun u => (u, j)) (g j)) l) = if memZ i l then map (fun u => (u, i)) (g i) else [].
Proof using Type.
  induction l as [|j l IH]; intros ND; [reflexivity|]. inversion ND as [|? ? NI ND']; subst. cbn [flat_map]. rewrite filter_app, IH by exact ND'.
  assert (F1 : filter (fun e : Z * Z => snd e =? i) (map (fun u => (u, j)) (g j)) = if j =? i then map (fun u => (u, j)) (g j) else []).
  { induction (g j) as [|u r IHr]; cbn [map filter snd]; [destruct (j =? i); reflexivity|]. rewrite IHr. destruct (j =? i); reflexivity. }
  rewrite F1. cbn [memZ existsb]. destruct (Z.eqb_spec j i) as [->|N].
  - rewrite Z.eqb_refl. cbn [orb]. assert (E : memZ i l = false) by (destruct (memZ i l) eqn:E; [apply memZ_In in E; contradiction|reflexivity]). rewrite E. apply app_nil_r.
  - replace (i =? j) with false by lia. reflexivity.
Qed.
Lemma arrive_ring hops h i : 0 <= i < n -> filter (fun e : Z * Z => snd e =? i) (hop_edges adj n hops h) = map (fun u => (u, i)) (nth h (rings adj hops [i] [i]) []).
Proof using Type.
  intros Hi. unfold hop_edges. rewrite filter_arrive by apply arange_NoDup. assert (E : memZ i (arange n) = true) by (apply memZ_In, arange_In, Hi). now rewrite E.
Qed.
Lemma hop_row hops h d F i : 0 <= i < n -> (h < hops)%nat ->
  ring_average link i (S h) d F (nth (Z.to_nat i) (spmm (hop_weighted (hop_edges adj n hops h)) (Z.to_nat n) d F) []).
Proof using Type.
  intros Hi Hh. unfold spmm. rewrite row_tabulate by lia. split; [now rewrite map_length, seq_length|]. exists (nth h (rings adj hops [i] [i]) []). split; [apply ring_at; assumption|].
  intros c Hc. rewrite (nth_map_in _ _ c 0%nat) by (rewrite seq_length; exact Hc). rewrite seq_nth by exact Hc. cbn [Nat.add]. rewrite Z2Nat.id by lia.
  set (es := hop_edges adj n hops h). set (L := nth h (rings adj hops [i] [i]) []).
  assert (E : filter (fun e : edge => e_dst e =? i) (hop_weighted es) = map (fun u => (u, i, (1 / inject_Z (lenZ L))%Q)) L).
  { assert (G : forall l : list (Z * Z), filter (fun e : edge => e_dst e =? i) (map (fun e => (e, (1 / inject_Z (arriving es (snd e)))%Q)) l) = map (fun e => (e, (1 / inject_Z (arriving es i))%Q)) (filter (fun e : Z * Z => snd e =? i) l)).
    { induction l as [|e l IH]; [reflexivity|]. cbn [map filter]. unfold e_dst at 1. cbn [fst snd]. rewrite IH. destruct (Z.eqb_spec (snd e) i) as [->|]; reflexivity. }
    unfold hop_weighted. rewrite G. unfold arriving. unfold es. rewrite arrive_ring by exact Hi. rewrite map_map. fold L. apply map_ext. intros u. unfold lenZ. now rewrite map_length. }
  rewrite E, map_map. unfold e_w, e_src. cbn [fst snd]. destruct L as [|a L']; [reflexivity|]. set (L := a :: L') in *. unfold mean_of. change (match map _ L with [] => 0%Q | _ :: _ => ?x end) with x.
  rewrite Qsum_scale. unfold lenZ at 2. rewrite map_length. fold (lenZ L). assert (~ inject_Z (lenZ L) == 0)%Q by (pose proof (lenZ_pos L ltac:(discriminate)); lra). field. assumption.
Qed.
Lemma hop_inputs_ok hops d F m : (m < hops)%nat -> 0 <= n ->
  hop_input link (Z.to_nat n) d F m (nth m (hop_inputs adj n hops d F) []).
Proof using Type.
  intros Hm Hn. unfold hop_inputs. rewrite (nth_map_in _ _ m 0%nat) by (rewrite seq_length; exact Hm). rewrite seq_nth by exact Hm. cbn [Nat.add]. unfold concat_features. split; [now rewrite map_length, seq_length|].
  intros i Hi. rewrite (nth_map_in _ _ i 0%nat) by (rewrite seq_length; exact Hi). rewrite seq_nth by exact Hi. cbn [Nat.add].
  exists (map (fun h => nth i (spmm (hop_weighted (hop_edges adj n hops h)) (Z.to_nat n) d F) []) (seq 0 (S m))). split; [|split; [now rewrite map_length, seq_length|]].
  - unfold hop_tables. replace (m + 2)%nat with (S (S m)) by lia. rewrite firstn_cons. cbn [flat_map]. f_equal. rewrite firstn_map, flat_map_concat_map, map_map. f_equal. f_equal.
    replace hops with (S m + (hops - S m))%nat by lia. rewrite seq_app, firstn_app, seq_length, Nat.sub_diag, firstn_O, app_nil_r, firstn_all2 by (rewrite seq_length; lia). reflexivity.
  - intros h Hh. rewrite (nth_map_in _ _ h 0%nat) by (rewrite seq_length; exact Hh). rewrite seq_nth by exact Hh. cbn [Nat.add]. rewrite <- (Nat2Z.id i) at 2. apply hop_row; lia.
Qed.
End Rings.
