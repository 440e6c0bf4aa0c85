From Coq Require Import QArith Qpower Qminmax Qabs Lqa ZifyBool ZifyNat.
From Verif Require Import Prelude ListFacts SampleServiceProofs QFacts TransModel TransSpec TransProofs TransSolveProofs SolveProofs GnnModel GnnSpec GnnProofs.
Local Open Scope Q_scope.
Local Open Scope list_scope.
Local Notation length := List.length.

(* ---- how far a layer sees *)
Lemma within_mono E r r' j i : within E r j i -> (r <= r')%nat -> within E r' j i.
Proof. intros H. revert r'. induction H as [r i|r j i e He Hi H IH]; intros r' Hr; [apply here|]. destruct r' as [|r']; [lia|]. eapply further; [exact He|exact Hi|]. apply IH. lia. Qed.
Lemma within_trans E r1 r2 l j i : within E r1 l j -> within E r2 j i -> within E (r1 + r2) l i.
Proof.
  intros H1 H2. revert l r1 H1. induction H2 as [r i|r j i e He Hi H IH]; intros l r1 H1; [apply (within_mono E r1); [exact H1|lia]|]. replace (r1 + S r)%nat with (S (r1 + r)) by lia. eapply further; [exact He|exact Hi|]. apply IH, H1.
Qed.
Section Local.
Variable E : list edge.
Variable n : nat.
Hypothesis HE : in_range n E.
Definition sized (f : mat -> mat) : Prop := forall X, length X = n -> length (f X) = n.
Lemma local_mono r r' f : local E n r f -> (r <= r')%nat -> local E n r' f.
Proof. intros H Hr X X' i HX HX' Hi HR. apply H; auto. intros j Hj Hw. apply HR; [exact Hj|]. apply (within_mono E r); assumption. Qed.
Lemma local_comp r1 r2 f g : sized f -> local E n r1 f -> local E n r2 g -> local E n (r1 + r2) (fun X => g (f X)).
Proof.
  intros Hs Hf Hg X X' i HX HX' Hi HR. apply Hg; try (apply Hs; assumption); [exact Hi|]. intros j Hj Hw. apply Hf; auto. intros l Hl Hw'. apply HR; [exact Hl|]. apply (within_trans E r1 r2 l j i); assumption.
Qed.
Lemma local_id : local E n 0 (fun X => X).
Proof. intros X X' i HX HX' Hi HR. apply HR; [exact Hi|apply here]. Qed.
Lemma sized_map (f : list Q -> list Q) : sized (map f).
Proof. intros X HX. now rewrite map_length. Qed.
Lemma local_map (f : list Q -> list Q) : local E n 0 (map f).
Proof. intros X X' i HX HX' Hi HR. rewrite !(nth_map_in f _ i []) by lia. f_equal. apply HR; [exact Hi|apply here]. Qed.
Lemma sized_spmm k : sized (spmm E n k).
Proof. intros X _. apply spmm_shape. Qed.
Lemma spmm_row k X X' i : (i < n)%nat -> (forall e, In e E -> e_dst e = Z.of_nat i -> nth (Z.to_nat (e_src e)) X [] = nth (Z.to_nat (e_src e)) X' []) -> nth i (spmm E n k X) [] = nth i (spmm E n k X') [].
Proof.
  intros Hi H. unfold spmm. rewrite !row_tabulate by exact Hi. apply map_ext. intros c. f_equal. apply map_ext_in. intros e He. apply filter_In in He as [He Hd]. f_equal. unfold entry. rewrite (H e He); [reflexivity|lia].
Qed.
Lemma arrives_within e i : In e E -> e_dst e = Z.of_nat i -> (Z.to_nat (e_src e) < n)%nat /\ within E 1 (Z.to_nat (e_src e)) i.
Proof using HE. intros He Hd. destruct (HE e He) as [Hs _]. split; [lia|]. eapply further; [exact He|lia|apply here]. Qed.
Lemma local_spmm k : local E n 1 (spmm E n k).
Proof using HE. intros X X' i HX HX' Hi HR. apply spmm_row; [exact Hi|]. intros e He Hd. destruct (arrives_within e i He Hd). apply HR; assumption. Qed.
Lemma local_iter f m : sized f -> local E n 1 f -> local E n m (fun X => Nat.iter m f X).
Proof.
  intros Hs Hf. induction m as [|m IH]; [exact local_id|]. intros X X' i HX HX' Hi HR. rewrite !iter_S. replace (S m) with (m + 1)%nat in HR by lia.
  assert (Hsz : sized (fun X => Nat.iter m f X)) by (clear -Hs; intros X HX; induction m as [|m IH]; [exact HX|rewrite iter_S; apply Hs, IH]).
  exact (local_comp m 1 _ f Hsz IH Hf X X' i HX HX' Hi HR).
Qed.
(* a personalised step: row i needs row i of the first table and the arriving rows of the second *)
Lemma local_ppr ra rb alpha c a b : sized a -> sized b -> local E n ra a -> local E n rb b -> (ra <= S rb)%nat -> local E n (S rb) (fun X => appnp_step alpha n c E (a X) (b X)).
Proof using HE.
  intros Sa Sb Ha Hb Hr X X' i HX HX' Hi HR. unfold appnp_step. rewrite !row_tabulate by exact Hi. apply map_ext. intros j.
  assert (H1 : nth i (a X) [] = nth i (a X') []) by (apply (local_mono ra (S rb) a Ha Hr X X' i); assumption).
  assert (H2 : nth i (spmm E n c (b X)) [] = nth i (spmm E n c (b X')) []) by (replace (S rb) with (rb + 1)%nat in HR by lia; exact (local_comp rb 1 b _ Sb Hb (local_spmm c) X X' i HX HX' Hi HR)).
  unfold entry. rewrite H1, H2. reflexivity.
Qed.
Lemma sized_ppr alpha c a b : sized (fun X => appnp_step alpha n c E (a X) (b X)).
Proof. intros X _. unfold appnp_step. apply shape_tabulate. Qed.
Lemma local_sgc k d : local E n (Z.to_nat k) (propagate k n d E).
Proof using HE. unfold propagate. apply local_iter; [apply sized_spmm|apply local_spmm]. Qed.
Lemma local_appnp mlp k alpha c : local E n (Z.to_nat k) (appnp mlp k alpha n c E).
Proof using HE.
  unfold appnp. generalize (Z.to_nat k). intros m.
  assert (HH : sized (fun X => Nat.iter m (appnp_step alpha n c E (map mlp X)) (map mlp X)) /\ local E n m (fun X => Nat.iter m (appnp_step alpha n c E (map mlp X)) (map mlp X))); [|apply HH].
  induction m as [|m [Hs IH]]; [split; [apply sized_map|apply local_map]|]. split.
  - intros X HX. rewrite iter_S. apply (sized_ppr alpha c (fun X => map mlp X) (fun X => Nat.iter m (appnp_step alpha n c E (map mlp X)) (map mlp X)) X HX).
  - intros X X' i HX HX' Hi HR. rewrite !iter_S.
    exact (local_ppr 0 m alpha c (map mlp) (fun X => Nat.iter m (appnp_step alpha n c E (map mlp X)) (map mlp X)) (sized_map mlp) Hs (local_map mlp) IH ltac:(lia) X X' i HX HX' Hi HR).
Qed.
Lemma local_gcn lin1 lin2 h c : local E n 2 (gcn lin1 lin2 n h c E).
Proof using HE.
  unfold gcn, gcn_conv. change 2%nat with (0 + 1 + 0 + 0 + 1)%nat.
  apply (local_comp (0 + 1 + 0 + 0) 1 (fun X => map lin2 (map (map relu) (spmm E n h (map lin1 X)))) (spmm E n c)); [|  |apply local_spmm].
  - intros X HX. rewrite !map_length. apply spmm_shape.
  - apply (local_comp (0 + 1 + 0) 0 (fun X => map (map relu) (spmm E n h (map lin1 X))) (map lin2)); [| |apply local_map].
    + intros X HX. rewrite map_length. apply spmm_shape.
    + apply (local_comp (0 + 1) 0 (fun X => spmm E n h (map lin1 X)) (map (map relu))); [| |apply local_map].
      * intros X HX. apply spmm_shape.
      * apply (local_comp 0 1 (map lin1) (spmm E n h)); [apply sized_map|apply local_map|apply local_spmm].
Qed.
Lemma local_rows r (f : mat -> nat -> list Q) : (forall X X' i, length X = n -> length X' = n -> (i < n)%nat -> (forall j, (j < n)%nat -> within E r j i -> nth j X [] = nth j X' []) -> f X i = f X' i) ->
  local E n r (fun X => map (f X) (seq 0 n)).
Proof. intros H X X' i HX HX' Hi HR. rewrite !(nth_map_in _ _ i 0%nat) by (rewrite seq_length; exact Hi). rewrite seq_nth by exact Hi. apply H; assumption. Qed.
Lemma sized_rows (f : mat -> nat -> list Q) : sized (fun X => map (f X) (seq 0 n)).
Proof. intros X _. now rewrite map_length, seq_length. Qed.
Lemma local_sage_conv lin d : local E n 1 (sage_conv lin n d E).
Proof using HE.
  unfold sage_conv. apply (local_rows 1 (fun X i => lin (nth i X [] ++ nth i (spmm E n d X) []))). intros X X' i HX HX' Hi HR. rewrite (HR i Hi (here E 1 i)). rewrite (local_spmm d X X' i HX HX' Hi HR). reflexivity.
Qed.
Lemma local_sage lin1 lin2 d h : local E n 2 (graphsage lin1 lin2 n d h E).
Proof using HE.
  unfold graphsage. change 2%nat with (1 + 0 + 1)%nat. apply (local_comp (1 + 0) 1 (fun X => map (map relu) (sage_conv lin1 n d E X)) (sage_conv lin2 n h E)); [| |apply local_sage_conv].
  - intros X HX. rewrite map_length. apply (sized_rows (fun X i => lin1 (nth i X [] ++ nth i (spmm E n d X) [])) X HX).
  - apply (local_comp 1 0 (sage_conv lin1 n d E) (map (map relu))); [intros X HX; apply (sized_rows (fun X i => lin1 (nth i X [] ++ nth i (spmm E n d X) [])) X HX)|apply local_sage_conv|apply local_map].
Qed.
(* Chebyshev terms *)
Lemma local_lap d : local E n 1 (lap_op n d E).
Proof using HE.
  intros X X' i HX HX' Hi HR. unfold lap_op. rewrite !row_tabulate by exact Hi. apply map_ext. intros c. unfold entry. rewrite (local_spmm d X X' i HX HX' Hi HR). reflexivity.
Qed.
Lemma sized_lap d : sized (lap_op n d E).
Proof. intros X _. unfold lap_op. apply shape_tabulate. Qed.
Lemma cheb_rest_local d fuel : forall r (t0 t1 : mat -> mat) X X' i, sized t0 -> sized t1 -> local E n r t0 -> local E n (S r) t1 -> length X = n -> length X' = n -> (i < n)%nat ->
  (forall j, (j < n)%nat -> within E (S r + fuel) j i -> nth j X [] = nth j X' []) ->
  map (fun t => nth i t []) (cheb_rest fuel n d E (t0 X) (t1 X)) = map (fun t => nth i t []) (cheb_rest fuel n d E (t0 X') (t1 X')).
Proof using HE.
  induction fuel as [|fuel IH]; intros r t0 t1 X X' i S0 S1 L0 L1 HX HX' Hi HR; [reflexivity|]. cbn [cheb_rest map].
  set (t2 := fun X => tabulate n d (fun i c => 2 * entry (lap_op n d E (t1 X)) i c - entry (t0 X) i c)).
  assert (L2 : local E n (S (S r)) t2).
  { intros Y Y' a HY HY' Ha HR'. unfold t2. rewrite !row_tabulate by exact Ha. apply map_ext. intros c.
    assert (H1 : nth a (lap_op n d E (t1 Y)) [] = nth a (lap_op n d E (t1 Y')) []) by (replace (S (S r)) with (S r + 1)%nat in HR' by lia; exact (local_comp (S r) 1 t1 _ S1 L1 (local_lap d) Y Y' a HY HY' Ha HR')).
    assert (H2 : nth a (t0 Y) [] = nth a (t0 Y') []) by (apply (local_mono r (S (S r)) t0 L0 ltac:(lia) Y Y' a); assumption).
    unfold entry. rewrite H1, H2. reflexivity. }
  f_equal.
  - apply (L2 X X' i HX HX' Hi). intros j Hj Hw. apply HR; [exact Hj|]. apply (within_mono E (S (S r))); [exact Hw|lia].
  - apply (IH (S r) t1 t2 X X' i S1); auto.
    + intros Y _. apply shape_tabulate.
    + intros j Hj Hw. apply HR; [exact Hj|]. replace (S r + S fuel)%nat with (S (S r) + fuel)%nat by lia. exact Hw.
Qed.
Lemma local_cheb_conv mix k d : local E n (Z.to_nat k) (cheb_conv mix k n d E).
Proof using HE.
  unfold cheb_conv. apply (local_rows (Z.to_nat k) (fun X i => mix (map (fun t => nth i t []) (cheb_terms k n d E X)))). intros X X' i HX HX' Hi HR. f_equal. unfold cheb_terms. destruct (Z.leb_spec 1 k) as [Hk|Hk]; cbn [map].
  - f_equal; [apply HR; [exact Hi|apply here]|]. f_equal.
    + apply (local_lap d X X' i HX HX' Hi). intros j Hj Hw. apply HR; [exact Hj|]. apply (within_mono E 1); [exact Hw|lia].
    + apply (cheb_rest_local d _ 0 (fun X => X) (lap_op n d E) X X' i); auto; [intros Y HY; exact HY|apply sized_lap|apply local_id|apply local_lap|].
      intros j Hj Hw. apply HR; [exact Hj|]. apply (within_mono E (1 + Z.to_nat (k - 1))); [exact Hw|lia].
  - f_equal. apply HR; [exact Hi|apply here].
Qed.
Lemma local_cheb mix1 mix2 k d h : local E n (2 * Z.to_nat k) (chebnet mix1 mix2 k n d h E).
Proof using HE.
  unfold chebnet. replace (2 * Z.to_nat k)%nat with (Z.to_nat k + 0 + Z.to_nat k)%nat by lia.
  assert (Hs : forall mix, sized (cheb_conv mix k n d E)) by (intros mix X HX; apply (sized_rows (fun X i => mix (map (fun t => nth i t []) (cheb_terms k n d E X))) X HX)).
  apply (local_comp (Z.to_nat k + 0) (Z.to_nat k) (fun X => map (map relu) (cheb_conv mix1 k n d E X)) (cheb_conv mix2 k n h E)); [| |apply local_cheb_conv].
  - intros X HX. rewrite map_length. apply Hs, HX.
  - apply (local_comp (Z.to_nat k) 0 (cheb_conv mix1 k n d E) (map (map relu))); [apply Hs|apply local_cheb_conv|apply local_map].
Qed.
Lemma local_gcnii lin_in layers lin_out alpha h : local E n (length layers) (gcnii lin_in layers lin_out alpha n h E).
Proof using HE.
  unfold gcnii. set (x0 := fun X : mat => map (fun r => map relu (lin_in r)) X).
  assert (HH : forall layers r b, sized b -> local E n r b -> sized (fun X => fold_left (fun x (layer : list Q -> list Q) => map layer (appnp_step alpha n h E (x0 X) x)) layers (b X)) /\
     local E n (r + length layers) (fun X => fold_left (fun x layer => map layer (appnp_step alpha n h E (x0 X) x)) layers (b X))).
  { clear layers. induction layers as [|f layers IH]; intros r b Sb Lb; cbn [fold_left length].
    - rewrite Nat.add_0_r. split; assumption.
    - replace (r + S (length layers))%nat with (S r + length layers)%nat by lia.
      apply (IH (S r) (fun X => map f (appnp_step alpha n h E (x0 X) (b X)))).
      + intros X HX. rewrite map_length. apply (sized_ppr alpha h x0 b X HX).
      + replace (S r) with (S r + 0)%nat by lia. apply (local_comp (S r) 0 (fun X => appnp_step alpha n h E (x0 X) (b X)) (map f)); [apply sized_ppr| |apply local_map].
        apply (local_ppr 0 r alpha h x0 b); [apply sized_map|exact Sb|apply local_map|exact Lb|lia]. }
  destruct (HH layers 0%nat x0 (sized_map _) (local_map _)) as [Sz Lz]. rewrite Nat.add_0_l in Lz.
  replace (length layers) with (length layers + 0)%nat by lia.
  apply (local_comp (length layers) 0 (fun X => fold_left (fun x layer => map layer (appnp_step alpha n h E (x0 X) x)) layers (x0 X)) (map lin_out)); [exact Sz|exact Lz|apply local_map].
Qed.
End Local.

(* ---- attention *)
Section Att.
Variable exp : Q -> Q.
Variable tiny : Q.
Lemma combine_map_r {A B} (l : list A) (f : A -> B) : combine l (map f l) = map (fun a => (a, f a)) l.
Proof. induction l as [|a l IH]; [reflexivity|]. cbn [map combine]. now rewrite IH. Qed.
Lemma combine_map_l {A B C} (l : list A) (m : list B) (f : A * B -> C) : length l = length m -> combine l (map f (combine l m)) = map (fun p => (fst p, f p)) (combine l m).
Proof. revert m. induction l as [|a l IH]; intros [|b m] H; try discriminate; [reflexivity|]. cbn [combine map fst]. f_equal. apply IH. now injection H. Qed.
Lemma local_gat lin score E n c : in_range n E -> local E n 1 (gat_head exp tiny lin score n c E).
Proof.
  intros HE X X' i HX HX' Hi HR. unfold gat_head, edge_softmax.
  set (sc := fun (X : mat) e => score (nth (Z.to_nat (e_src e)) (map lin X) []) (nth (Z.to_nat (e_dst e)) (map lin X) [])).
  change (map (fun e => score (nth (Z.to_nat (e_src e)) (map lin X) []) (nth (Z.to_nat (e_dst e)) (map lin X) [])) E) with (map (sc X) E).
  change (map (fun e => score (nth (Z.to_nat (e_src e)) (map lin X') []) (nth (Z.to_nat (e_dst e)) (map lin X') [])) E) with (map (sc X') E).
  assert (HROW : forall e, In e E -> e_dst e = Z.of_nat i -> nth (Z.to_nat (e_src e)) (map lin X) [] = nth (Z.to_nat (e_src e)) (map lin X') []).
  { intros e He Hd. destruct (arrives_within E n HE e i He Hd) as [Hlt Hw]. rewrite !(nth_map_in lin _ _ []) by lia. f_equal. apply HR; assumption. }
  assert (HII : nth i (map lin X) [] = nth i (map lin X') []) by (rewrite !(nth_map_in lin _ _ []) by lia; f_equal; apply HR; [exact Hi|apply here]).
  assert (HSC : forall e, In e E -> e_dst e = Z.of_nat i -> sc X e = sc X' e) by (intros e He Hd; unfold sc; rewrite (HROW e He Hd), Hd, Nat2Z.id, HII; reflexivity).
  assert (HV : arriving_values E (map (sc X) E) (Z.of_nat i) = arriving_values E (map (sc X') E) (Z.of_nat i)).
  { unfold arriving_values. rewrite !combine_map_r. rewrite !filter_map_comm, !map_map. cbn [fst snd]. apply map_ext_in. intros e He. apply filter_In in He as [He Hd]. apply HSC; [exact He|lia]. }
  unfold spmm. rewrite !row_tabulate by exact Hi. apply map_ext. intros j. f_equal.
  rewrite !combine_map_l by (now rewrite map_length). rewrite !combine_map_r. rewrite !filter_map_comm, !map_map. unfold e_dst, e_src, e_w. cbn [fst snd]. fold e_dst e_src e_w.
  apply map_ext_in. intros e He. apply filter_In in He as [He Hd]. assert (Hd' : snd (fst e) = Z.of_nat i) by lia. rewrite (HSC e He Hd'). unfold entry. assert (HR1 := HROW e He Hd'). unfold e_src in HR1. rewrite HR1, Hd', HV. reflexivity.
Qed.
Lemma largest_value_spec l : l <> [] -> (forall x, In x l -> x <= largest_value l) /\ exists x, In x l /\ largest_value l == x.
Proof.
  destruct l as [|v r]; [congruence|]. intros _. cbn [largest_value]. induction r as [|a r [IH1 (x & Hx & Ex)]]; [split; [intros x [<-|[]]; cbn; lra|exists v; split; [now left|reflexivity]]|]. cbn [fold_right]. split.
  - intros y [<-|[<-|Hy]]; [|apply Q.le_max_l|]; (eapply Qle_trans; [apply IH1; cbn; eauto|apply Q.le_max_r]).
  - destruct (Q.max_spec a (fold_right Qmax v r)) as [[_ Em]|[_ Em]]; [exists x; split; [destruct Hx as [<-|Hx]; [now left|right; now right]|eapply Qeq_trans; [exact Em|exact Ex]]|exists a; split; [right; now left|exact Em]].
Qed.
(* the attention of the edges arriving at a node *)
Lemma attention_sum E l i : (forall x, 0 < exp x) -> (forall x, x == 0 -> exp x == 1) -> 0 <= tiny -> length l = length E -> (exists e, In e E /\ e_dst e = i) ->
  (forall a, In a (edge_softmax exp tiny E l) -> 0 < a) /\
  1 - tiny <= Qsum (map snd (filter (fun p : edge * Q => (e_dst (fst p) =? i)%Z) (combine E (edge_softmax exp tiny E l)))) <= 1.
Proof.
  intros Hpos H0 Ht Hl (e0 & He0 & Hd0). assert (HS : forall vs m, 0 <= Qsum (map (fun v => exp (v - m)) vs)) by (intros vs m; apply Qsum_nonneg; intros x Hx; apply in_map_iff in Hx as (y & <- & _); specialize (Hpos (y - m)); lra).
  assert (HIN : forall e v, In (e, v) (combine E l) -> In v (arriving_values E l (e_dst e))) by (intros e v Hin; unfold arriving_values; apply in_map_iff; exists (e, v); split; [reflexivity|]; apply filter_In; split; [exact Hin|cbn; lia]).
  assert (HD : forall j, arriving_values E l j <> [] -> 1 <= Qsum (map (fun v => exp (v - largest_value (arriving_values E l j))) (arriving_values E l j))).
  { intros j Hj. destruct (largest_value_spec _ Hj) as [_ (x & Hx & Ex)]. generalize dependent (largest_value (arriving_values E l j)). intros m Ex. clear Hj. induction (arriving_values E l j) as [|a r IH]; [destruct Hx|]. cbn [map]. rewrite Qsum_cons. destruct Hx as [->|Hx].
    - rewrite (H0 (x - m)) by lra. specialize (HS r m). lra.
    - specialize (IH Hx). specialize (Hpos (a - m)). lra. }
  split.
  - intros a Ha. unfold edge_softmax in Ha. apply in_map_iff in Ha as ([e v] & <- & Hin). cbn [fst snd]. apply Qlt_shift_div_l.
    + assert (1 <= Qsum (map (fun v => exp (v - largest_value (arriving_values E l (e_dst e)))) (arriving_values E l (e_dst e)))) by (apply HD; intros En; assert (Hx := HIN e v Hin); rewrite En in Hx; destruct Hx). lra.
    + rewrite Qmult_0_l. apply Hpos.
  - unfold edge_softmax. rewrite combine_map_l by (now symmetry). rewrite filter_map_comm, map_map. cbn [fst snd].
    set (vs := arriving_values E l i). set (m := largest_value vs). set (D := Qsum (map (fun v => exp (v - m)) vs)).
    assert (HD1 : 1 <= D). { apply HD. intros En. destruct (In_nth E e0 e0 He0) as (a & Ha & Ea). assert (Hx : In (e0, nth a l 0) (combine E l)) by (rewrite <- Ea at 1; rewrite <- combine_nth by (now symmetry); apply nth_In; rewrite combine_length, Hl; lia). apply HIN in Hx. rewrite Hd0, En in Hx. destruct Hx. }
    assert (HSUM : Qsum (map (fun p : edge * Q => exp (snd p - largest_value (arriving_values E l (e_dst (fst p)))) / (Qsum (map (fun v => exp (v - largest_value (arriving_values E l (e_dst (fst p))))) (arriving_values E l (e_dst (fst p)))) + tiny)) (filter (fun p => (e_dst (fst p) =? i)%Z) (combine E l))) == D / (D + tiny)).
    { transitivity (Qsum (map (fun p : edge * Q => exp (snd p - m) * (1 / (D + tiny))) (filter (fun p => (e_dst (fst p) =? i)%Z) (combine E l)))).
      - apply Qsum_ext. intros [e v] Hin. apply filter_In in Hin as [_ Hd]. cbn [fst snd] in *. replace (e_dst e) with i by lia. fold vs. fold m. fold D. field. lra.
      - rewrite Qsum_scale_r. unfold D at 2, vs, arriving_values. rewrite map_map. field. lra. }
    rewrite HSUM. split.
    + apply Qle_shift_div_l; [lra|]. nra.
    + apply Qle_shift_div_r; lra.
Qed.
End Att.

Lemma Qmult_le_l_nonneg' a x y : 0 <= a -> x <= y -> a * x <= a * y.
Proof. intros. nra. Qed.
(* ---- bounds and contraction of random-walk propagation *)
Section Stochastic.
Variable n k : nat.
Variable P : nat -> nat -> Q.
Hypothesis HP : forall i j, (i < n)%nat -> (j < n)%nat -> 0 <= P i j.
Hypothesis H1 : forall i, (i < n)%nat -> Qsum (map (P i) (seq 0 n)) == 1.
Lemma mix_bounds lo hi (x : nat -> Q) i : (i < n)%nat -> (forall j, (j < n)%nat -> lo <= x j <= hi) -> lo <= Qsum (map (fun j => P i j * x j) (seq 0 n)) <= hi.
Proof using HP H1.
  intros Hi Hx. assert (HL : Qsum (map (fun j => P i j * lo) (seq 0 n)) == lo) by (rewrite Qsum_scale_r, (H1 i Hi); ring). assert (HH : Qsum (map (fun j => P i j * hi) (seq 0 n)) == hi) by (rewrite Qsum_scale_r, (H1 i Hi); ring).
  assert (HQ : forall a b j, In j (seq 0 n) -> (a j <= b j) -> P i j * a j <= P i j * b j) by (intros a b j Hj Hab; apply in_seq in Hj; apply Qmult_le_l_nonneg'; [apply HP; lia|exact Hab]).
  split; [eapply Qle_trans; [apply Qle_lteq; right; symmetry; exact HL|]|eapply Qle_trans; [|apply Qle_lteq; right; exact HH]]; apply Qsum_le; intros j Hj; [apply (HQ (fun _ => lo) x)|apply (HQ x (fun _ => hi))]; try exact Hj; apply in_seq in Hj; apply Hx; lia.
Qed.
Lemma mix_apart d (x y : nat -> Q) i : (i < n)%nat -> (forall j, (j < n)%nat -> Qabs (x j - y j) <= d) -> Qabs (Qsum (map (fun j => P i j * x j) (seq 0 n)) - Qsum (map (fun j => P i j * y j) (seq 0 n))) <= d.
Proof using HP H1.
  intros Hi Hx. assert (HB := mix_bounds (- d) d (fun j => x j - y j) i Hi). cbn beta in HB. specialize (HB ltac:(intros j Hj; apply Qabs_Qle_condition, Hx, Hj)). apply Qabs_Qle_condition.
  assert (HE : Qsum (map (fun j => P i j * (x j - y j)) (seq 0 n)) == Qsum (map (fun j => P i j * x j) (seq 0 n)) - Qsum (map (fun j => P i j * y j) (seq 0 n))) by (rewrite <- Qsum_minus; apply Qsum_ext; intros; ring). rewrite HE in HB. exact HB.
Qed.
Lemma ppr_apart alpha h0 d F G : 0 <= alpha <= 1 -> apart_by n k d F G -> apart_by n k ((1 - alpha) * d) (ppr_step n P alpha h0 F) (ppr_step n P alpha h0 G).
Proof using HP H1.
  intros Ha HD i c Hi Hc. unfold ppr_step. assert (HM := mix_apart d (fun j => F j c) (fun j => G j c) i Hi (fun j Hj => HD j c Hj Hc)). cbn beta in HM.
  set (a := Qsum (map (fun j => P i j * F j c) (seq 0 n))) in *. set (b := Qsum (map (fun j => P i j * G j c) (seq 0 n))) in *.
  assert (HQ : (1 - alpha) * a + alpha * h0 i c - ((1 - alpha) * b + alpha * h0 i c) == (1 - alpha) * (a - b)) by ring. rewrite HQ, Qabs_Qmult. rewrite (Qabs_pos (1 - alpha)) by lra. apply Qmult_le_l_nonneg'; [lra|exact HM].
Qed.
Lemma ppr_bounds alpha h0 lo hi F : 0 <= alpha <= 1 -> in_box n k lo hi h0 -> in_box n k lo hi F -> in_box n k lo hi (ppr_step n P alpha h0 F).
Proof using HP H1.
  intros Ha H0 HF i c Hi Hc. unfold ppr_step. destruct (mix_bounds (lo c) (hi c) (fun j => F j c) i Hi (fun j Hj => HF j c Hj Hc)) as [B1 B2]. destruct (H0 i c Hi Hc) as [B3 B4]. set (a := Qsum _) in *. split; nra.
Qed.
(* the fixed point of personalised propagation exists *)
Lemma ppr_fixed alpha h0 : 0 < alpha <= 1 -> exists h, forall i c, (i < n)%nat -> (c < k)%nat -> ppr_step n P alpha h0 h i c == h i c.
Proof using HP H1.
  intros Ha. set (M := fun i j => (if Nat.eqb j i then 1 else 0) * 1 - (1 - alpha) * P i j).
  assert (HM : forall x i, (i < n)%nat -> mv n M x i == x i - (1 - alpha) * Qsum (map (fun j => P i j * x j) (seq 0 n))).
  { intros x i Hi. unfold mv, sumn, M. rewrite <- Qsum_scale. rewrite <- (sum_pick x i (seq 0 n)) by (try apply seq_NoDup; apply in_seq; lia). rewrite <- Qsum_minus. apply Qsum_ext. intros j _. ring. }
  assert (HMT : forall x j, (j < n)%nat -> mtv n M x j == x j - (1 - alpha) * Qsum (map (fun i => P i j * x i) (seq 0 n))).
  { intros x j Hj. unfold mtv, sumn, M. rewrite <- Qsum_scale. rewrite <- (sum_pick x j (seq 0 n)) by (try apply seq_NoDup; apply in_seq; lia). rewrite <- Qsum_minus. apply Qsum_ext. intros i _. rewrite Nat.eqb_sym. ring. }
  assert (HI : forall z, (forall j, (j < n)%nat -> mtv n M z j == 0) -> forall i, (i < n)%nat -> z i == 0).
  { intros z Hz. assert (HS : Qsum (map (fun j => Qabs (z j)) (seq 0 n)) <= (1 - alpha) * Qsum (map (fun i => Qabs (z i)) (seq 0 n))).
    { apply Qle_trans with (Qsum (map (fun j => (1 - alpha) * Qsum (map (fun i => P i j * Qabs (z i)) (seq 0 n))) (seq 0 n))).
      - apply Qsum_le. intros j Hj. apply in_seq in Hj. assert (Hj' : (j < n)%nat) by lia. assert (H := Hz j Hj'). rewrite HMT in H by exact Hj'.
        assert (Hq : z j == (1 - alpha) * Qsum (map (fun i => P i j * z i) (seq 0 n))) by lra. rewrite Hq, Qabs_Qmult, (Qabs_pos (1 - alpha)) by lra. apply Qmult_le_l_nonneg'; [lra|]. clear Hq H.
        assert (HG : forall l, (forall i, In i l -> (i < n)%nat) -> Qabs (Qsum (map (fun i => P i j * z i) l)) <= Qsum (map (fun i => P i j * Qabs (z i)) l)).
        { induction l as [|a l IH]; intros Hl; [cbn; lra|]. cbn [map]. rewrite !Qsum_cons. eapply Qle_trans; [apply Qabs_triangle|]. apply Qplus_le_compat; [|apply IH; intros; apply Hl; now right]. rewrite Qabs_Qmult, (Qabs_pos (P a j)); [apply Qle_refl|]. apply HP; [apply Hl; now left|exact Hj']. }
        apply HG. intros i Hi. apply in_seq in Hi. lia.
      - rewrite Qsum_scale. apply Qmult_le_l_nonneg'; [lra|]. rewrite Qsum_swap. apply Qle_lteq. right. apply Qsum_ext. intros i Hi. apply in_seq in Hi. rewrite Qsum_scale_r. change (fun b => P i b) with (P i). rewrite H1 by lia. ring. }
    assert (H0 : 0 <= Qsum (map (fun i => Qabs (z i)) (seq 0 n))) by (apply Qsum_nonneg; intros q Hq; apply in_map_iff in Hq as (j & <- & _); apply Qabs_nonneg).
    assert (HZ : Qsum (map (fun i => Qabs (z i)) (seq 0 n)) == 0) by nra. intros i Hi.
    assert (Hq : Qabs (z i) == 0) by (apply (Qsum_zero_inv (map (fun i => Qabs (z i)) (seq 0 n))); [intros q Hq; apply in_map_iff in Hq as (l & <- & _); apply Qabs_nonneg|exact HZ|]; apply in_map_iff; exists i; split; [reflexivity|apply in_seq; lia]).
    assert (HA : Qabs (z i) <= 0) by lra. apply Qabs_Qle_condition in HA. lra. }
  assert (HX : forall c, exists x, forall i, (i < n)%nat -> mv n M x i == alpha * h0 i c) by (intros c; apply (transpose_solvable n M (fun i => alpha * h0 i c) HI)).
  assert (HC : forall k, exists h : nat -> nat -> Q, forall i c, (i < n)%nat -> (c < k)%nat -> ppr_step n P alpha h0 h i c == h i c).
  { intros k0. induction k0 as [|k0 (h & IH)]; [exists (fun _ _ => 0); intros; lia|]. destruct (HX k0) as (x & Hx). exists (fun i c => if Nat.eqb c k0 then x i else h i c). intros i c Hi Hc. unfold ppr_step. destruct (Nat.eqb_spec c k0) as [->|Hne].
    - specialize (Hx i Hi). rewrite HM in Hx by exact Hi. lra.
    - apply IH; [exact Hi|lia]. }
  exact (HC k).
Qed.
Lemma ppr_iter alpha h0 hs d m : 0 <= alpha <= 1 -> (forall i c, (i < n)%nat -> (c < k)%nat -> ppr_step n P alpha h0 hs i c == hs i c) -> apart_by n k d h0 hs ->
  apart_by n k ((1 - alpha) ^ Z.of_nat m * d) (Nat.iter m (ppr_step n P alpha h0) h0) hs.
Proof using HP H1.
  intros Ha Hf Hd. induction m as [|m IH].
  - intros i c Hi Hc. change ((1 - alpha) ^ Z.of_nat 0) with 1. rewrite Qmult_1_l. apply Hd; assumption.
  - intros i c Hi Hc. rewrite iter_S. assert (H := ppr_apart alpha h0 _ _ _ Ha IH i c Hi Hc). rewrite (Hf i c Hi Hc) in H. replace (Z.of_nat (S m)) with (Z.of_nat m + 1)%Z by lia.
    eapply Qle_trans; [exact H|]. apply Qle_lteq. right. rewrite Qpower_plus' by lia. change ((1 - alpha) ^ 1) with (1 - alpha). ring.
Qed.
End Stochastic.
(* the two propagations of the program *)
Section Run.
Variables (rsqrt : Q -> Q) (tiny : Q) (mode : gnn_norm) (loops : bool) (n : Z) (E : list edge).
Hypothesis Hr : mode = NormSym -> same_value rsqrt.
Hypothesis Hn : (0 < n)%Z.
Hypothesis HE : in_range (Z.to_nat n) E.
Local Notation N := (Z.to_nat n).
Local Notation P := (takes rsqrt tiny mode loops N E).
Local Notation E' := (edge_normalise rsqrt tiny mode (with_loops loops n E)).
Definition walk_step (F : nat -> nat -> Q) (i c : nat) : Q := Qsum (map (fun j => P i j * F j c) (seq 0 N)).
Lemma propagate_entry k d X i c : (i < N)%nat -> (c < d)%nat -> entry (propagate k N d E' X) i c == Nat.iter (Z.to_nat k) walk_step (entry X) i c.
Proof using All.
  unfold propagate. generalize (Z.to_nat k). intros m. revert i c. induction m as [|m IH]; intros i c Hi Hc; [reflexivity|]. rewrite !iter_S. rewrite (spmm_takes rsqrt tiny mode loops n E d) by assumption. apply Qsum_ext. intros j Hj. apply in_seq in Hj. rewrite (IH j c) by lia. reflexivity.
Qed.
Lemma appnp_entry mlp k alpha d X i c : (i < N)%nat -> (c < d)%nat ->
  entry (appnp mlp k alpha N d E' X) i c == Nat.iter (Z.to_nat k) (ppr_step N P alpha (entry (map mlp X))) (entry (map mlp X)) i c.
Proof using All.
  unfold appnp. generalize (Z.to_nat k). intros m. revert i c. induction m as [|m IH]; intros i c Hi Hc; [reflexivity|]. rewrite !iter_S. unfold appnp_step at 1. rewrite entry_tabulate by assumption. unfold ppr_step at 1.
  apply Qplus_comp; [|reflexivity]. apply Qmult_comp; [reflexivity|]. rewrite (spmm_takes rsqrt tiny mode loops n E d) by assumption. apply Qsum_ext. intros j Hj. apply in_seq in Hj. rewrite (IH j c) by lia. reflexivity.
Qed.
End Run.
