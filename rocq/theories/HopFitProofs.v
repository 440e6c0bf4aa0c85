(* The losses, early stopping and the iteration of GraphHop. *)
From Coq Require Import QArith Qminmax Lia Lqa Permutation.
From Coq Require Import ZifyBool ZifyNat.
From Verif Require Import Prelude ListFacts QFacts TransModel TransSpec TransProofs GnnModel GnnSpec GnnTrainProofs HopModel HopSpec HopProofs.
Local Open Scope Z_scope.
Local Open Scope list_scope.
Local Notation length := List.length.

(* ---- rows of a mask *)
Lemma filter_map_S (f : nat -> bool) l : filter f (map S l) = map S (filter (fun i => f (S i)) l).
Proof. induction l as [|a l IH]; [reflexivity|]. cbn [map filter]. rewrite IH. destruct (f (S a)); reflexivity. Qed.
Lemma masked_seq {A} mask (l : list A) d : length mask = length l -> masked mask l = map (fun i => nth i l d) (filter (sel mask) (seq 0 (length l))).
Proof.
  revert mask. induction l as [|x l IH]; intros [|b mask] E; try discriminate; [reflexivity|]. injection E as E. unfold masked in *. cbn [combine filter fst length]. rewrite <- cons_seq, <- seq_shift. cbn [filter].
  rewrite filter_map_S. change (fun i => sel (b :: mask) (S i)) with (sel mask). unfold sel at 1. cbn [nth]. destruct b; cbn [map snd nth]; rewrite map_map, <- IH by exact E; reflexivity.
Qed.
Lemma trues_seq mask : length (filter (fun b : bool => b) mask) = length (filter (sel mask) (seq 0 (length mask))).
Proof.
  induction mask as [|b mask IH]; [reflexivity|]. cbn [length filter]. rewrite <- cons_seq, <- seq_shift. cbn [filter]. rewrite filter_map_S. change (fun i => sel (b :: mask) (S i)) with (sel mask). unfold sel at 1. cbn [nth].
  destruct b; cbn [length]; rewrite map_length, IH; reflexivity.
Qed.
Lemma negb_sel mask i : (i < length mask)%nat -> sel (map negb mask) i = negb (sel mask i).
Proof. intros H. unfold sel. now rewrite (nth_map_in negb mask i false false H). Qed.
Lemma negb_filter mask n : length mask = n -> filter (sel (map negb mask)) (seq 0 n) = filter (others (sel mask)) (seq 0 n).
Proof. intros <-. apply filter_ext_in. intros i Hi. apply in_seq in Hi. apply negb_sel. lia. Qed.
Lemma over_filter n S f : (over n S f == Qsum (map f (filter S (seq 0 n))))%Q.
Proof. unfold over. induction (seq 0 n) as [|a l IH]; [reflexivity|]. cbn [map filter]. rewrite Qsum_cons, IH. destruct (S a); cbn [map]; rewrite ?Qsum_cons; ring. Qed.
Lemma combine_maps {A B C} (f : A -> B) (g : A -> C) l : combine (map f l) (map g l) = map (fun x => (f x, g x)) l.
Proof. induction l as [|a l IH]; [reflexivity|]. cbn. now rewrite IH. Qed.
Lemma osum_some {A} (f : A -> Q) l : osum (map (fun x => Some (f x)) l) = Some (Qsum (map f l)).
Proof. induction l as [|a l IH]; [reflexivity|]. cbn [map]. unfold osum in *. cbn [fold_right]. rewrite IH. reflexivity. Qed.
Lemma row_entries F i k : length (nth i F []) = k -> nth i F [] = map (entry F i) (seq 0 k).
Proof. intros <-. unfold entry. symmetry. apply map_nth_seq. Qed.
Lemma paired_ok (a : nat -> list Q) (b : nat -> list (option Q)) (P lp : nat -> nat -> Q) k L :
  (forall i, In i L -> a i = map (P i) (seq 0 k)) -> (forall i, In i L -> b i = map (fun c => Some (lp i c)) (seq 0 k)) ->
  paired (map a L) (map b L) = Some (Qsum (map (fun i => Qsum (map (fun c => P i c * lp i c)%Q (seq 0 k))) L)).
Proof.
  intros HA HB. unfold paired. rewrite combine_maps, map_map. cbn [fst snd]. rewrite <- osum_some. f_equal. apply map_ext_in. intros i Hi. rewrite (HA i Hi), (HB i Hi), combine_maps, map_map. cbn [fst snd oscale]. apply osum_some.
Qed.
Lemma one_at_length k v : length (one_at k v) = k.
Proof. unfold one_at, onehot_row. now rewrite map_length, seq_length. Qed.
Lemma one_at_nth k v c : - Z.of_nat k <= v < Z.of_nat k -> (c < k)%nat -> nth c (one_at k v) 0%Q = if Nat.eqb c (class_of k v) then 1%Q else 0%Q.
Proof.
  intros Hv Hc. unfold one_at, onehot_row. rewrite (nth_map_in _ _ c 0%nat) by (rewrite seq_length; exact Hc). rewrite seq_nth by exact Hc. cbn [Nat.add]. unfold class_of.
  set (z := if v <? 0 then v + Z.of_nat k else v). assert (0 <= z < Z.of_nat k) by (unfold z; destruct (v <? 0) eqn:E; lia).
  destruct (Nat.eqb_spec c (Z.to_nat z)) as [->|N]; [rewrite Z2Nat.id by lia; now rewrite Z.eqb_refl|]. destruct (Z.eqb_spec z (Z.of_nat c)); [lia|reflexivity].
Qed.
Lemma class_of_bound k v : - Z.of_nat k <= v < Z.of_nat k -> (class_of k v < k)%nat.
Proof. intros H. unfold class_of. destruct (v <? 0) eqn:E; lia. Qed.
Lemma pick_one k c0 (f g : nat -> Q) : (c0 < k)%nat -> (forall c, (c < k)%nat -> g c = if Nat.eqb c c0 then 1%Q else 0%Q) -> (Qsum (map (fun c => g c * f c)%Q (seq 0 k)) == f c0)%Q.
Proof.
  intros Hc HG. transitivity (Qsum (map (fun c => if Nat.eqb c c0 then f c0 else 0%Q) (seq 0 k))).
  - apply Qsum_ext. intros c Hin. apply in_seq in Hin. rewrite HG by lia. destruct (Nat.eqb_spec c c0) as [->|]; ring.
  - replace (seq 0 k) with (seq 0 c0 ++ c0 :: seq (S c0) (k - S c0)). 2:{ rewrite cons_seq, <- seq_app. f_equal. lia. }
    rewrite map_app, Qsum_app. cbn [map]. rewrite Qsum_cons, Nat.eqb_refl. rewrite !Qsum_zero; [ring| |]; intros c Hin; apply in_seq in Hin; (destruct (Nat.eqb_spec c c0); [lia|reflexivity]).
Qed.

Section Loss.
Context {M : Type}.
Variable log_prob : M -> list Q -> list (option Q).
Variable expo : Q -> Q.
Variables (sp : hop_spec) (n k : nat) (train : list bool) (y : list Z).
Hypothesis LT : length train = n.
Hypothesis LY : length y = n.
Hypothesis HY : forall i, (i < n)%nat -> - Z.of_nat k <= nth i y (-1) < Z.of_nat k.
Hypothesis NE : exists i, (i < n)%nat /\ sel train i = true.
Notation own := (cls k y).
Lemma own_bound i : (i < n)%nat -> (own i < k)%nat.
Proof using All. intros Hi. apply class_of_bound, HY, Hi. Qed.
Lemma lp_rows m X lp mask : numeric log_prob m X n k lp -> length mask = n ->
  exists b, masked mask (map (log_prob m) X) = map b (filter (sel mask) (seq 0 n)) /\ forall i, In i (filter (sel mask) (seq 0 n)) -> b i = map (fun c => Some (lp i c)) (seq 0 k).
Proof using All.
  intros [LX HN] LM. exists (fun i => nth i (map (log_prob m) X) []). split; [rewrite (masked_seq mask _ []) by (rewrite map_length; lia); rewrite map_length, LX; reflexivity|].
  intros i Hi. apply filter_In in Hi as [Hi _]. apply in_seq in Hi. rewrite (nth_map_in _ _ i [] []) by lia. apply HN. lia.
Qed.
Lemma number_pos : 1 <= number n (sel train).
Proof using All. destruct NE as (i & Hi & Hs). unfold number, lenZ. assert (In i (filter (sel train) (seq 0 n))) as HI by (apply filter_In; split; [apply in_seq; lia|exact Hs]). destruct (filter _ _); [destruct HI|cbn [length]; lia]. Qed.
Lemma supervised m X labels lp mask : numeric log_prob m X n k lp -> length mask = n -> length labels = n -> (forall i, (i < n)%nat -> sel mask i = true -> nth i labels [] = one_at k (nth i y (-1))) ->
  exists q, paired (masked mask labels) (masked mask (map (log_prob m) X)) = Some q /\ (q == - over n (sel mask) (fun i => - lp i (own i)))%Q.
Proof using All.
  intros HN LM LL HL. destruct (lp_rows m X lp mask HN LM) as (b & -> & HB). rewrite (masked_seq mask labels []) by lia. rewrite LL.
  assert (HA : forall i, In i (filter (sel mask) (seq 0 n)) -> nth i labels [] = map (fun c => nth c (one_at k (nth i y (-1))) 0%Q) (seq 0 k)).
  { intros i Hi. apply filter_In in Hi as [Hi Hs]. apply in_seq in Hi. rewrite HL by (lia || exact Hs). rewrite <- (one_at_length k (nth i y (-1))) at 2. symmetry. apply map_nth_seq. }
  rewrite (paired_ok _ b _ lp k _ HA HB). eexists. split; [reflexivity|]. rewrite over_filter. rewrite <- (Qmult_1_l (Qsum (map (fun i => - lp i (own i))%Q _))). transitivity (Qsum (map (fun i => -1 * - lp i (own i))%Q (filter (sel mask) (seq 0 n)))).
  - apply Qsum_ext. intros i Hi. apply filter_In in Hi as [Hi _]. apply in_seq in Hi. rewrite (pick_one k (own i)); [ring|apply own_bound; lia|]. intros c Hc. apply one_at_nth; [apply HY; lia|exact Hc].
  - rewrite Qsum_scale. ring.
Qed.
Lemma train_loss_ok first X labels : length labels = n -> (forall i, (i < n)%nat -> length (nth i labels []) = k) ->
  (forall i, (i < n)%nat -> sel train i = true -> nth i labels [] = one_at k (nth i y (-1))) ->
  measures log_prob (train_loss M log_prob expo sp first (Z.of_nat k) train X (masked train labels) (masked (map negb train) labels)) X n k
    (fun lp => (label_loss n (sel train) own lp + (if first then 0 else hs_alpha sp * pseudo_loss n k (sel train) (entry labels) lp + hs_beta sp * entropy_loss n k (sel train) expo lp))%Q).
Proof using All.
  intros LL LR HL m lp HN. unfold train_loss. destruct (supervised m X labels lp train HN LT LL HL) as (q & -> & Eq).
  assert (E1 : lenZ (filter (fun b : bool => b) train) = number n (sel train)) by (unfold lenZ, number; rewrite trues_seq, LT; reflexivity).
  pose proof number_pos as NP. rewrite E1. unfold per. rewrite Z.max_l by lia. cbn [oscale].
  assert (NZ : ~ (inject_Z (number n (sel train)) == 0)%Q) by (rewrite inject_Z_injective with (b := 0); lia).
  assert (SUP : (1 / inject_Z (number n (sel train)) * q == - label_loss n (sel train) own lp)%Q) by (unfold label_loss; rewrite Eq; field; exact NZ).
  destruct first; [eexists; split; [reflexivity|]; rewrite SUP; ring|].
  assert (LN : length (map negb train) = n) by (rewrite map_length; exact LT).
  assert (E2 : lenZ (filter (fun b : bool => b) (map negb train)) = number n (others (sel train))) by (unfold lenZ, number; rewrite trues_seq, LN, negb_filter by exact LT; reflexivity).
  rewrite E2. destruct (lp_rows m X lp (map negb train) HN LN) as (b & -> & HB). rewrite (masked_seq (map negb train) labels []) by lia. rewrite LL. rewrite negb_filter in * by exact LT.
  assert (HA : forall i, In i (filter (others (sel train)) (seq 0 n)) -> nth i labels [] = map (entry labels i) (seq 0 k)) by (intros i Hi; apply filter_In in Hi as [Hi _]; apply in_seq in Hi; apply row_entries, LR; lia).
  rewrite (paired_ok _ b _ lp k _ HA HB). cbn [oscale oplus].
  assert (EN : entropy_sum expo (map b (filter (others (sel train)) (seq 0 n))) = Some (Qsum (map (fun i => Qsum (map (fun c => expo (lp i c) * lp i c)%Q (seq 0 k))) (filter (others (sel train)) (seq 0 n))))).
  { unfold entropy_sum. rewrite map_map, <- osum_some. f_equal. apply map_ext_in. intros i Hi. rewrite (HB i Hi), map_map. cbn [option_map omul]. apply osum_some. }
  rewrite EN. cbn [oscale oplus]. eexists. split; [reflexivity|]. rewrite SUP. unfold pseudo_loss, entropy_loss. set (K := inject_Z (Z.max (number n (others (sel train)) * Z.of_nat k) 1)).
  assert (KZ : ~ (K == 0)%Q) by (unfold K; rewrite inject_Z_injective with (b := 0); lia).
  assert (NEG : forall w : nat -> nat -> Q, (over n (others (sel train)) (fun i => per_class k (fun c => w i c * - lp i c)) == - Qsum (map (fun i => Qsum (map (fun c => w i c * lp i c) (seq 0 k))) (filter (others (sel train)) (seq 0 n))))%Q).
  { intros w. rewrite over_filter. transitivity (Qsum (map (fun i => -1 * Qsum (map (fun c => w i c * lp i c)%Q (seq 0 k)))%Q (filter (others (sel train)) (seq 0 n)))); [|rewrite Qsum_scale; ring].
    apply Qsum_ext. intros i _. unfold per_class. rewrite <- Qsum_scale. apply Qsum_ext. intros c _. ring. }
  rewrite !NEG. field. exact KZ.
Qed.
Lemma valid_loss_ok v X labels : length v = n -> length labels = n -> length X = n -> (forall i, (i < n)%nat -> nth i labels [] = one_at k (nth i y (-1))) ->
  measures log_prob (valid_loss M log_prob X v (masked v labels)) X n k (fun lp => held_out_loss n own lp (sel v)).
Proof using All.
  intros LV LL LX HL m lp HN. unfold valid_loss. assert (EM : map (log_prob m) (masked v X) = masked v (map (log_prob m) X)).
  { rewrite (masked_seq v X []) by lia. rewrite (masked_seq v (map (log_prob m) X) []) by (rewrite map_length; lia). rewrite map_map, map_length. apply map_ext_in. intros i Hi. apply filter_In in Hi as [Hi _]. apply in_seq in Hi. symmetry. apply nth_map_in. lia. }
  rewrite EM. destruct (supervised m X labels lp v HN LV LL (fun i Hi _ => HL i Hi)) as (q & -> & Eq). cbn [oscale]. eexists. split; [reflexivity|]. rewrite Eq. unfold held_out_loss. ring.
Qed.
End Loss.
