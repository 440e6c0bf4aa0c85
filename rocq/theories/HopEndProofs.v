(* Proofs about a whole fit of GraphHop: the result follows the iteration, hidden labels do not matter, rows are distributions. *)
From Coq Require Import QArith Qminmax ZifyBool ZifyNat Lqa.
From Verif Require Import Prelude ListFacts QFacts TransModel TransProofs GnnModel GnnSpec GnnTrainProofs HopModel HopSpec HopProofs HopFitProofs HopRunProofs.
Local Open Scope Z_scope.
Local Open Scope list_scope.
Local Notation length := List.length.

Lemma val_of_ok d : validation (nd_val d) (val_of d).
Proof.
  unfold val_of, validation. destruct (nd_val d) as [m|]; [|discriminate]. destruct (existsb (fun b => b) m) eqn:E; [split; [reflexivity|]; apply exists_true, E|].
  intros v i [= <-]. destruct (sel m i) eqn:Es; [|reflexivity]. exfalso. assert (existsb (fun b => b) m = true) by (apply exists_true; exists i; exact Es). congruence.
Qed.
Lemma validation_unique given a b : validation given a -> validation given b -> a = b.
Proof.
  destruct a as [a|], b as [b|]; cbn [validation]; [intros [-> _] [[= ->] _]; reflexivity| | |reflexivity].
  - intros [-> (i & Hi)] H. rewrite (H a i eq_refl) in Hi. discriminate.
  - intros H [-> (i & Hi)]. rewrite (H b i eq_refl) in Hi. discriminate.
Qed.
Lemma sel_lt m i : sel m i = true -> (i < length m)%nat.
Proof. intros H. destruct (Nat.lt_ge_cases i (length m)); [assumption|]. unfold sel in H. rewrite nth_overflow in H by assumption. discriminate. Qed.
Lemma weights_given hops w : 1 <= hops -> weights_fit hops w -> hop_weight hops w (hop_weights hops w).
Proof.
  intros Hh W. unfold hop_weight, hop_weights, weights_fit in *. destruct w; [split; [exact W|reflexivity]|]. split; [unfold lenZ; rewrite repeat_length; lia|].
  intros x Hx. apply repeat_spec in Hx as ->. field. unfold inject_Z, Qeq. cbn. lia.
Qed.
Lemma last_nth {A} (l : list A) d : l <> [] -> last l d = nth (length l - 1) l d.
Proof. induction l as [|a [|b l] IH]; [contradiction|reflexivity|]. intros _. change (last (a :: b :: l) d) with (last (b :: l) d). rewrite IH by discriminate. cbn [List.length]. replace (S (S (length l)) - 1)%nat with (S (S (length l) - 1)) by lia. reflexivity. Qed.
Lemma Qsum_repeat x k : (Qsum (repeat x k) == inject_Z (Z.of_nat k) * x)%Q.
Proof.
  induction k as [|k IH]; [reflexivity|]. cbn [repeat]. rewrite Qsum_cons, IH. rewrite Nat2Z.inj_succ. unfold Z.succ. rewrite inject_Z_plus. ring.
Qed.
Section Fit.
Context {M Op G : Type}.
Variable fresh : G -> nat -> nat -> M * G.
Variable adam : M -> Op.
Variable descend : M -> Op -> (M -> option Q) -> M * Op.
Variable log_prob : M -> list Q -> list (option Q).
Variable soft : M -> list Q -> list Q.
Variable temp_soft : Q -> M -> list Q -> list Q.
Variable expo : Q -> Q.
Variable rsqrt : Q -> Q.
Variable tiny : Q.
Variable seeded : Z -> G.
Notation fit := (hop_fit M Op G fresh adam descend log_prob soft temp_soft expo rsqrt tiny seeded).
Notation loop := (hop_loop M Op G fresh adam descend log_prob soft temp_soft expo).
Lemma fit_follows sp seed d st train t val : fit sp seed d = Ok st -> nd_train d = Some train -> top_label (nd_y d) t -> validation (nd_val d) val ->
  (forall m r, length (temp_soft (hs_temperature sp) m r) = Z.to_nat (t + 1)) ->
  let n := length (nd_X d) in let k := Z.to_nat (t + 1) in let link := linked (nd_edges d) (Z.of_nat n) (hs_symmetrize sp) in
  exists X start m0 g P wt wp,
    hop_input link n (nd_width d) (nd_X d) (Z.to_nat (hs_hops sp) - 1) X /\ fresh (seeded seed) (length (hd [] X)) k = (start, g) /\
    trained_on adam descend log_prob expo sp n k train val (nd_y d) true X [] start m0 /\
    pseudo_labels n k train (nd_y d) P (fun i c => nth c (temp_soft (hs_temperature sp) m0 (nth i X [])) 0%Q) /\
    hop_weight (hs_hops sp) (hs_weight_temp sp) wt /\ hop_weight (hs_hops sp) (hs_weight_pred sp) wp /\
    iterates fresh adam descend log_prob soft temp_soft expo sp link n k train val (nd_y d) wt wp (Z.to_nat (hs_max_iter sp)) true (map (soft m0) X) P [] g (st_proba st) /\ st_n st = Z.of_nat n.
Proof.
  intros HF ET TT HV WD. apply hop_fit_iff in HF as (tr & t' & (HH & HT & U & ET' & TT' & HO & W1 & W2) & ->). rewrite ET in ET'. injection ET' as <-.
  assert (t' = t) as ->. { destruct TT as [I1 M1], TT' as [I2 M2]. specialize (M1 _ I2). specialize (M2 _ I1). lia. }
  assert (val = val_of d) as -> by (apply (validation_unique (nd_val d)); [exact HV|apply val_of_ok]).
  intros n k link. assert (HX : length (nd_X d) = length (nd_y d)) by apply U. assert (HM := proj1 (proj2 (proj2 (proj2 (proj2 U))))).
  assert (En : Z.to_nat (lenZ (nd_X d)) = n) by (unfold lenZ; lia). destruct HO as (HS & HP & HC & HL).
  assert (Ht : 0 <= t). { destruct HS as (i & Hi). assert (Hlt := sel_lt _ _ Hi). rewrite (HM train (or_introl ET)), HX in Hlt. specialize (HP i Hlt Hi). destruct TT as [_ Mx]. specialize (Mx (nth i (nd_y d) (-1)) (nth_In _ _ Hlt)). lia. }
  assert (Ek : Z.of_nat k = t + 1) by (unfold k; lia). unfold outcome. cbn [st_proba st_n]. fold k. rewrite <- Ek.
  set (X := last (hop_inputs _ _ _ _ _) []).
  assert (LT : length train = Z.to_nat (lenZ (nd_X d))) by (rewrite En; apply HM; now left).
  assert (LY : length (nd_y d) = Z.to_nat (lenZ (nd_X d))) by (rewrite En; symmetry; exact HX).
  assert (HY : forall i, (i < Z.to_nat (lenZ (nd_X d)))%nat -> - Z.of_nat k <= nth i (nd_y d) (-1) < Z.of_nat k).
  { intros i Hi. assert (I : In (nth i (nd_y d) (-1)) (nd_y d)) by (apply nth_In; rewrite LY; exact Hi). pose proof (HL _ I). pose proof (proj2 TT _ I). lia. }
  assert (NE : exists i, (i < Z.to_nat (lenZ (nd_X d)))%nat /\ sel train i = true) by (destruct HS as (i & Hi); exists i; split; [rewrite <- LT; apply sel_lt, Hi|exact Hi]).
  assert (LV : forall v, val_of d = Some v -> length v = Z.to_nat (lenZ (nd_X d))) by (intros v Ev; pose proof (val_of_ok d) as VO; rewrite Ev in VO; rewrite En; apply HM; right; left; apply VO).
  assert (HIN : hop_input link n (nd_width d) (nd_X d) (Z.to_nat (hs_hops sp) - 1) X).
  { unfold X. set (l := hop_inputs _ _ _ _ _). assert (Ll : length l = Z.to_nat (hs_hops sp)) by (unfold l, hop_inputs; now rewrite map_length, seq_length).
    assert (EL : last l [] = nth (Z.to_nat (hs_hops sp) - 1) l []). { rewrite <- Ll. assert (NEl : l <> []) by (intros E; rewrite E in Ll; cbn in Ll; lia). apply last_nth, NEl. }
    rewrite EL. pose proof (hop_inputs_ok (nd_edges d) (lenZ (nd_X d)) (hs_symmetrize sp) (Z.to_nat (hs_hops sp)) (nd_width d) (nd_X d) (Z.to_nat (hs_hops sp) - 1) ltac:(lia) ltac:(unfold lenZ; lia)) as HI. rewrite En in HI. exact HI. }
  assert (LX : length X = Z.to_nat (lenZ (nd_X d))) by (rewrite En; apply HIN).
  destruct (train_lr_ok fresh adam descend log_prob soft temp_soft expo sp (nd_edges d) (lenZ (nd_X d)) k train (val_of d) (nd_y d) LT LY HY NE LV 0 X (map (one_at k) (nd_y d)) None (seeded seed) (good_onehot fresh adam descend log_prob soft temp_soft expo sp (nd_edges d) (lenZ (nd_X d)) k train (val_of d) (nd_y d) LT LY HY NE LV) LX) as (start & T & FR).
  destruct (train_lr M Op G fresh adam descend log_prob expo sp 0 (Z.of_nat k) X _ train _ None (seeded seed)) as [m0 g]. cbn [fst snd] in T, FR |- *.
  set (F0 := map (temp_soft (hs_temperature sp) m0) X).
  assert (SF : shape (Z.to_nat (lenZ (nd_X d))) k F0). { split; [unfold F0; rewrite map_length; exact LX|]. intros r Hr. apply in_map_iff in Hr as (x & <- & _). apply WD. }
  destruct (clamp_good fresh adam descend log_prob soft temp_soft expo sp (nd_edges d) (lenZ (nd_X d)) k train (val_of d) (nd_y d) LT LY HY NE LV F0 SF) as [GP PL].
  exists X, start, m0, g, (clamp train (map (one_at k) (nd_y d)) F0), (hop_weights (hs_hops sp) (hs_weight_temp sp)), (hop_weights (hs_hops sp) (hs_weight_pred sp)).
  split; [exact HIN|]. split; [exact FR|]. rewrite En in T, PL. split; [exact T|]. split.
  { destruct PL as [P1 P2]. split; [exact P1|]. intros i Hi. destruct (P2 i Hi) as [Q1 Q2]. split; [exact Q1|]. intros c Hc. rewrite (Q2 c Hc). destruct (sel train i); [reflexivity|]. unfold entry, F0. rewrite (nth_map_in _ _ i []) by (rewrite LX, En; exact Hi). reflexivity. }
  split; [apply weights_given; assumption|]. split; [apply weights_given; assumption|]. split; [|reflexivity].
  pose proof (hop_loop_ok fresh adam descend log_prob soft temp_soft expo sp (nd_edges d) (lenZ (nd_X d)) k train (val_of d) (nd_y d) LT LY HY NE LV (hop_weights (hs_hops sp) (hs_weight_temp sp)) (hop_weights (hs_hops sp) (hs_weight_pred sp)) ltac:(unfold lenZ; lia)
    (Z.to_nat (hs_max_iter sp)) 1 (map (soft m0) X) (clamp train (map (one_at k) (nd_y d)) F0) (repeat None (Z.to_nat (hs_hops sp))) [] g ltac:(lia) ltac:(rewrite map_length; exact LX) GP ltac:(apply repeat_length) ltac:(lia)) as IT.
  rewrite En in IT. exact IT.
Qed.

(* ---- hidden labels *)
Lemma masked_map_same {A} mask (f : Z -> A) y y' : length y = length y' -> (forall i, sel mask i = true -> nth i y (-1) = nth i y' (-1)) -> masked mask (map f y) = masked mask (map f y').
Proof.
  unfold masked. revert y y'. induction mask as [|b mask IH]; intros [|v y] [|v' y'] HL HS; try discriminate HL; try reflexivity. injection HL as HL.
  assert (R := IH y y' HL (fun i Hi => HS (Datatypes.S i) Hi)). cbn [map combine filter fst]. destruct b; [|exact R]. cbn [map snd]. rewrite R. rewrite (HS 0%nat eq_refl : v = v'). reflexivity.
Qed.
Lemma clamp_same mask (f : Z -> list Q) y y' F : length y = length y' -> (forall i, sel mask i = true -> nth i y (-1) = nth i y' (-1)) -> clamp mask (map f y) F = clamp mask (map f y') F.
Proof.
  unfold clamp. revert y y' F. induction mask as [|b mask IH]; intros [|v y] [|v' y'] [|r F] HL HS; try discriminate HL; try reflexivity. injection HL as HL.
  assert (R := IH y y' F HL (fun i Hi => HS (Datatypes.S i) Hi)). cbn [map combine fst snd]. rewrite R. destruct b; [|reflexivity]. rewrite (HS 0%nat eq_refl : v = v'). reflexivity.
Qed.
Lemma loop_same sp train (oh oh' : mat) adj n k val wt wp : (forall F, clamp train oh F = clamp train oh' F) -> forall fuel step H P prevs g,
  loop sp fuel step adj n k oh train val wt wp H P prevs g = loop sp fuel step adj n k oh' train val wt wp H P prevs g.
Proof. intros HC. induction fuel as [|fuel IH]; intros step H P prevs g; cbn [hop_loop]; [reflexivity|]. destruct (per_hop _ _ _ _ _ _ _ _ sp step k P train val _ prevs g) as [ms g']. rewrite HC. apply IH. Qed.
Lemma first_same sp k X oh oh' train val prev g : masked train oh = masked train oh' ->
  train_lr M Op G fresh adam descend log_prob expo sp 0 k X oh train val prev g = train_lr M Op G fresh adam descend log_prob expo sp 0 k X oh' train val prev g.
Proof. intros HM. unfold train_lr, train_loss. cbn [Z.eqb]. rewrite HM. reflexivity. Qed.
Lemma outcome_same sp seed d y' train k : length (nd_y d) = length y' -> (forall i, sel train i = true -> nth i (nd_y d) (-1) = nth i y' (-1)) ->
  (forall i, selected (nd_val d) i -> nth i (nd_y d) (-1) = nth i y' (-1)) ->
  outcome fresh adam descend log_prob soft temp_soft expo seeded sp seed d train k = outcome fresh adam descend log_prob soft temp_soft expo seeded sp seed (relabelled d y') train k.
Proof.
  intros HL HS HV. unfold outcome. cbn [relabelled nd_X nd_y nd_edges nd_width]. change (val_of (relabelled d y')) with (val_of d).
  assert (EV : match val_of d with Some m => Some (m, masked m (map (one_at (Z.to_nat k)) (nd_y d))) | None => None end = match val_of d with Some m => Some (m, masked m (map (one_at (Z.to_nat k)) y')) | None => None end).
  { pose proof (val_of_ok d) as VO. destruct (val_of d) as [v|]; [|reflexivity]. destruct VO as [EV _]. rewrite EV in HV. do 2 f_equal. apply masked_map_same; [exact HL|exact HV]. }
  rewrite EV. rewrite (first_same sp k _ _ _ train _ None (seeded seed) (masked_map_same train _ _ _ HL HS)). rewrite (clamp_same train _ _ _ _ HL HS). f_equal. apply loop_same. intros F. apply clamp_same; assumption.
Qed.
Lemma fit_hidden sp seed d y' st st' train t : fit sp seed d = Ok st -> fit sp seed (relabelled d y') = Ok st' -> nd_train d = Some train -> top_label (nd_y d) t -> top_label y' t ->
  (forall i, sel train i = true -> nth i (nd_y d) (-1) = nth i y' (-1)) -> (forall i, selected (nd_val d) i -> nth i (nd_y d) (-1) = nth i y' (-1)) -> st = st'.
Proof.
  intros F1 F2 ET T1 T2 HS HV. apply hop_fit_iff in F1 as (tr & t1 & (_ & _ & U1 & E1 & TT1 & _) & ->). apply hop_fit_iff in F2 as (tr' & t2 & (_ & _ & U2 & E2 & TT2 & _) & ->). cbn [relabelled nd_train nd_y] in E2, TT2.
  rewrite ET in E1, E2. injection E1 as <-. injection E2 as <-. assert (t1 = t) as -> by (apply Z.le_antisymm; [apply T1, TT1|apply TT1, T1]). assert (t2 = t) as -> by (apply Z.le_antisymm; [apply T2, TT2|apply TT2, T2]).
  apply outcome_same; [|exact HS|exact HV]. transitivity (length (nd_X d)); [symmetry; apply U1|apply U2].
Qed.

(* ---- rows *)
Lemma mixture_row n k ws preds i : lenZ ws = lenZ preds -> distribution ws -> (i < n)%nat -> (forall F, In F preds -> length (nth i F []) = k /\ distribution (nth i F [])) ->
  length (nth i (weighted_sum n k ws preds) []) = k /\ distribution (nth i (weighted_sum n k ws preds) []).
Proof.
  intros HL [W0 W1] Hi HF. unfold weighted_sum. rewrite row_tabulate by exact Hi. split; [now rewrite map_length, seq_length|]. split.
  - intros x Hx. apply in_map_iff in Hx as (c & <- & Hc). apply Qsum_nonneg. intros z Hz. apply in_map_iff in Hz as ([w F] & <- & HI). cbn [fst snd]. pose proof (in_combine_l _ _ _ _ HI) as Hw. pose proof (in_combine_r _ _ _ _ HI) as HFin.
    apply in_seq in Hc. apply Qmult_le_0_compat; [apply W0, Hw|]. destruct (HF F HFin) as [L [P _]]. apply P. unfold entry. apply nth_In. lia.
  - rewrite <- W1. clear W0 W1. rewrite Qsum_swap. assert (HL' : length ws = length preds) by (unfold lenZ in HL; lia). clear HL. revert preds HL' HF. induction ws as [|w ws IH]; intros [|F preds] HL HF; try discriminate HL; [reflexivity|].
    cbn [combine map]. rewrite !Qsum_cons. apply Qplus_comp; [|apply IH; [injection HL as HL; exact HL|intros F' H'; apply HF; now right]]. cbn [fst snd]. destruct (HF F (or_introl eq_refl)) as [L [_ S1]].
    rewrite Qsum_scale. rewrite <- (Qmult_1_r w) at 2. apply Qmult_comp; [reflexivity|]. rewrite <- S1. unfold entry. rewrite <- L, map_nth_seq. reflexivity.
Qed.
Lemma per_hop_shape sp step k P train val : forall Xs prevs g, length prevs = length Xs -> map snd (fst (per_hop M Op G fresh adam descend log_prob expo sp step k P train val Xs prevs g)) = Xs.
Proof. induction Xs as [|X Xs IH]; intros [|p prevs] g HL; try discriminate HL; [reflexivity|]. cbn [per_hop]. destruct (train_lr _ _ _ _ _ _ _ _ sp step k X P train val p g) as [m g1]. injection HL as HL. specialize (IH prevs g1 HL). destruct (per_hop _ _ _ _ _ _ _ _ sp step k P train val Xs prevs g1) as [r g2]. cbn [fst map snd] in *. now rewrite IH. Qed.
Lemma loop_rows sp edges n k oh train val wt wp : 0 <= n -> lenZ wp = hs_hops sp -> distribution wp -> (forall m r, length (soft m r) = Z.to_nat k /\ distribution (soft m r)) ->
  forall fuel step H P prevs g, length prevs = Z.to_nat (hs_hops sp) -> length H = Z.to_nat n -> (forall i, (i < Z.to_nat n)%nat -> length (nth i H []) = Z.to_nat k /\ distribution (nth i H [])) ->
  let R := loop sp fuel step (adj_list edges n (hs_symmetrize sp)) n k oh train val wt wp H P prevs g in
  length R = Z.to_nat n /\ forall i, (i < Z.to_nat n)%nat -> length (nth i R []) = Z.to_nat k /\ distribution (nth i R []).
Proof.
  intros Hn LW DW DS. induction fuel as [|fuel IH]; intros step H P prevs g LP LH HD; cbn [hop_loop]; [split; assumption|].
  set (Xs := hop_inputs _ n _ _ H). assert (LXs : length Xs = Z.to_nat (hs_hops sp)) by (unfold Xs, hop_inputs; now rewrite map_length, seq_length).
  pose proof (per_hop_shape sp step k P train val Xs prevs g (eq_trans LP (eq_sym LXs))) as EM. destruct (per_hop _ _ _ _ _ _ _ _ sp step k P train val Xs prevs g) as [ms g']. cbn [fst] in EM.
  assert (LM : length ms = Z.to_nat (hs_hops sp)) by (rewrite <- LXs, <- EM, map_length; reflexivity).
  apply IH; [rewrite map_length; exact LM|unfold weighted_sum, tabulate; now rewrite map_length, seq_length|]. intros i Hi. apply mixture_row; [|exact DW|exact Hi|].
  - unfold lenZ in *. rewrite map_length. lia.
  - intros F HF. apply in_map_iff in HF as ([m X] & <- & HI). cbn [fst snd]. assert (In X Xs) as HX by (rewrite <- EM; apply in_map_iff; exists (m, X); auto).
    assert (LX : length X = Z.to_nat n). { apply (In_nth _ _ []) in HX as (j & Hj & <-). apply (hop_inputs_ok edges n (hs_symmetrize sp) _ (Z.to_nat k) H j (eq_ind _ (fun z => (j < z)%nat) Hj _ LXs) Hn). }
    rewrite (nth_map_in _ _ i []) by (rewrite LX; exact Hi). apply DS.
Qed.
Lemma fit_rows sp seed d st t : fit sp seed d = Ok st -> top_label (nd_y d) t -> (forall m r, length (soft m r) = Z.to_nat (t + 1) /\ distribution (soft m r)) ->
  match hs_weight_pred sp with Some w => distribution w | None => True end ->
  length (st_proba st) = length (nd_X d) /\ forall i, (i < length (nd_X d))%nat -> length (nth i (st_proba st) []) = Z.to_nat (t + 1) /\ distribution (nth i (st_proba st) []).
Proof.
  intros HF TT DS HW. apply hop_fit_iff in HF as (tr & t' & (HH & HT & U & ET & TT' & HO & W1 & W2) & ->). assert (t' = t) as -> by (apply Z.le_antisymm; [apply TT, TT'|apply TT', TT]).
  assert (En : Z.to_nat (lenZ (nd_X d)) = length (nd_X d)) by (unfold lenZ; lia). rewrite <- En. unfold outcome. cbn [st_proba]. set (X := last (hop_inputs _ _ _ _ _) []).
  assert (LX : length X = Z.to_nat (lenZ (nd_X d))).
  { unfold X. set (l := hop_inputs _ _ _ _ _). assert (Ll : length l = Z.to_nat (hs_hops sp)) by (unfold l, hop_inputs; now rewrite map_length, seq_length). assert (NEl : l <> []) by (intros E; rewrite E in Ll; cbn in Ll; lia).
    assert (HI : In (last l []) l) by (rewrite (app_removelast_last [] NEl) at 2; apply in_or_app; right; now left). apply (In_nth _ _ []) in HI as (j & Hj & <-). apply (hop_inputs_ok (nd_edges d) (lenZ (nd_X d)) (hs_symmetrize sp) _ _ (nd_X d) j (eq_ind _ (fun z => (j < z)%nat) Hj _ Ll)). unfold lenZ; lia. }
  destruct (train_lr _ _ _ _ _ _ _ _ sp 0 _ X _ tr _ None (seeded seed)) as [m0 g]. cbn [fst snd].
  pose proof (weights_given _ _ HH W2) as [WL WG].
  apply loop_rows; [unfold lenZ; lia|exact WL| |exact DS|apply repeat_length|rewrite map_length; exact LX|].
  - destruct (hs_weight_pred sp) as [w|] eqn:EW; [rewrite WG; exact HW|]. cbn [hop_weights] in *. split.
    + intros x Hx. specialize (WG x Hx). assert (0 < inject_Z (hs_hops sp))%Q by (change 0%Q with (inject_Z 0); rewrite <- Zlt_Qlt; lia). nra.
    + rewrite Qsum_repeat, Z2Nat.id by lia. field. unfold inject_Z, Qeq. cbn. lia.
  - intros i Hi. rewrite (nth_map_in _ _ i []) by (rewrite LX; exact Hi). apply DS.
Qed.
End Fit.
