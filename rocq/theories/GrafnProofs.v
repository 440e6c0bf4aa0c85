From Coq Require Import QArith Qminmax Lqa ZifyBool ZifyNat.
From Verif Require Import Prelude ListFacts QFacts TransModel TransSpec TransProofs TransSolveProofs GnnModel GnnSpec GnnProofs GnnTrainProofs DeepLossSpec GrafnModel GrafnSpec.
Local Open Scope Q_scope.
Local Open Scope list_scope.
Local Notation length := List.length.

Lemma Qltb_true a b : Qltb a b = true <-> a < b.
Proof. unfold Qltb. destruct (Qle_bool b a) eqn:E; cbn [negb]; [apply Qle_bool_iff in E; split; [discriminate|lra]|]. split; [|reflexivity]. intros _. apply Qnot_le_lt. intros H. apply Qle_bool_iff in H. congruence. Qed.
Lemma Qltb_false a b : Qltb a b = false <-> b <= a.
Proof. unfold Qltb. rewrite Bool.negb_false_iff. apply Qle_bool_iff. Qed.
Lemma exists_nth (m : list bool) : existsb (fun b => b) m = true <-> exists i, nth i m false = true.
Proof.
  rewrite existsb_exists. split.
  - intros (x & Hx & ->). apply (In_nth _ _ false) in Hx as (i & _ & Hi). now exists i.
  - intros (i & Hi). exists true. split; [|reflexivity]. rewrite <- Hi. apply nth_In. destruct (Nat.lt_ge_cases i (length m)) as [H|H]; [exact H|]. rewrite nth_overflow in Hi by exact H. discriminate.
Qed.

(* ---- the support *)
Lemma class_nodes_In y train c i : In i (class_nodes y train c) <-> labelled y train c i.
Proof. unfold class_nodes, labelled. rewrite filter_In, in_seq, andb_true_iff, Z.eqb_eq. split; [intros [H1 [H2 H3]]|intros (H1 & H2 & H3)]; [split; [lia|]; now split|split; [lia|]; now split]. Qed.
Lemma class_nodes_NoDup y train c : NoDup (class_nodes y train c).
Proof. apply NoDup_filter, seq_NoDup. Qed.
Lemma class_count y train c : labelled_count y train c (length (class_nodes y train c)).
Proof. exists (class_nodes y train c). split; [apply class_nodes_NoDup|]. split; [reflexivity|]. intros i. apply class_nodes_In. Qed.
Lemma class_count_unique y train c m : labelled_count y train c m -> m = length (class_nodes y train c).
Proof. intros (l & HN & <- & HI). apply Permutation_length, NoDup_Permutation; [exact HN|apply class_nodes_NoDup|]. intros i. rewrite HI. symmetry. apply class_nodes_In. Qed.
Lemma smallest_spec l : l <> [] -> In (smallest l) l /\ forall x, In x l -> (smallest l <= x)%nat.
Proof.
  destruct l as [|a r]; [congruence|]. intros _. cbn [smallest]. induction r as [|b r [IH1 IH2]]; cbn [fold_right]; [split; [now left|intros x [<-|[]]; lia]|].
  destruct (Nat.min_spec b (fold_right Nat.min a r)) as [[H ->]|[H ->]]; (split; [|intros x [<-|[<-|Hx]]; [specialize (IH2 a (or_introl eq_refl)); lia|lia|specialize (IH2 x (or_intror Hx)); lia]]); [right; now left|destruct IH1 as [IH1|IH1]; [now left|right; now right]].
Qed.
Section Support.
Variable G : Type.
Variable choice : G -> list nat -> nat -> bool -> list nat * G.
Hypothesis Hc : choice_ok choice.
Lemma sample_spec size (f : nat -> nat) : (0 < size)%nat -> forall l off g, (forall idx, In idx l -> NoDup idx /\ (size <= length idx)%nat) -> (forall k i, In i (nth k l []) -> f i = (off + k)%nat) ->
  let s := fst (sample_classes G choice size l g) in
  length s = (size * length l)%nat /\ NoDup s /\ (forall i, In i s -> (off <= f i)%nat) /\ forall t, (t < size * length l)%nat -> In (nth t s O) (nth (t / size) l []).
Proof.
  intros Hs. induction l as [|idx l IH]; intros off g HL Hf; [cbn; rewrite Nat.mul_0_r; split; [reflexivity|]; split; [constructor|]; split; [intros i []|intros t Ht; lia]|].
  cbn [sample_classes]. destruct (HL idx (or_introl eq_refl)) as [HN Hlen]. replace (Nat.ltb (length idx) size) with false by (symmetry; apply Nat.ltb_ge; exact Hlen).
  destruct (Hc g idx size HN Hlen) as (H1 & H2 & H3). destruct (choice g idx size false) as [s g1]. cbn [fst] in H1, H2, H3.
  specialize (IH (S off) g1 (fun i Hi => HL i (or_intror Hi))). cbv zeta in IH. destruct (sample_classes G choice size l g1) as [r g2]. cbn [fst] in IH |- *. cbn [length].
  destruct IH as (I1 & I2 & I3 & I4); [intros k i Hi; rewrite (Hf (S k) i Hi); lia|].
  assert (HF : forall i, In i s -> f i = off) by (intros i Hi; apply H3 in Hi; rewrite (Hf O i Hi); lia).
  split; [rewrite app_length; lia|]. split.
  - clear -H2 I2 I3 HF. induction s as [|a s IH]; [exact I2|]. inversion H2 as [|? ? Ha Hs]. subst. cbn [app]. constructor.
    + rewrite in_app_iff. intros [H|H]; [contradiction|]. specialize (I3 a H). specialize (HF a (or_introl eq_refl)). lia.
    + apply IH; [exact Hs|]. intros i Hi. apply HF. now right.
  - split; [intros i Hi; apply in_app_iff in Hi as [Hi|Hi]; [rewrite (HF i Hi); lia|specialize (I3 i Hi); lia]|].
    intros t Ht. destruct (Nat.lt_ge_cases t size) as [Hlt|Hge].
    + rewrite Nat.div_small by exact Hlt. rewrite app_nth1 by lia. cbn [nth]. apply H3, nth_In. lia.
    + rewrite app_nth2 by lia. rewrite H1. replace (t / size)%nat with (S ((t - size) / size)); [cbn [nth]; apply I4; lia|]. replace t with (t - size + 1 * size)%nat at 2 by lia. rewrite Nat.div_add by lia. lia.
Qed.
Lemma support_spec y train classes g s L g' : sample_support G choice y train classes g = Ok (s, L, g') ->
  exists b, (0 < b)%nat /\ (forall c m, (0 <= c < classes)%Z -> labelled_count y train c m -> (b <= m)%nat) /\ (exists c, (0 <= c < classes)%Z /\ labelled_count y train c b) /\
    length s = (b * Z.to_nat classes)%nat /\ NoDup s /\ (forall t, (t < b * Z.to_nat classes)%nat -> labelled y train (Z.of_nat (t / b)) (nth t s O)) /\
    indicates (Z.to_nat classes) (b * Z.to_nat classes) (fun t => t / b)%nat L.
Proof.
  unfold sample_support. cbv zeta. remember (map (fun c => class_nodes y train (Z.of_nat c)) (seq 0 (Z.to_nat classes))) as D0 eqn:HD0. destruct (existsb _ D0) eqn:EX; [discriminate|].
  assert (HD : length D0 = Z.to_nat classes) by (rewrite HD0; now rewrite map_length, seq_length).
  assert (Hne : forall idx, In idx D0 -> idx <> []). { intros idx Hi ->. enough (existsb (fun idx : list nat => match idx with [] => true | _ => false end) D0 = true) by congruence. apply existsb_exists. exists []. now split. }
  assert (HDn : forall k, (k < Z.to_nat classes)%nat -> nth k D0 [] = class_nodes y train (Z.of_nat k)) by (intros k Hk; rewrite HD0; rewrite (nth_map_in _ _ k O) by (rewrite seq_length; exact Hk); now rewrite seq_nth by exact Hk).
  clear HD0 EX. destruct D0 as [|d0 D0]; [discriminate|]. set (D := d0 :: D0) in *. set (b := smallest (map (@length nat) D)).
  assert (HM : map (@length nat) D <> []) by discriminate. destruct (smallest_spec _ HM) as [HB1 HB2]. fold b in HB1, HB2.
  assert (HIn : forall idx, In idx D -> exists k, (k < Z.to_nat classes)%nat /\ idx = class_nodes y train (Z.of_nat k)). { intros idx Hi. apply (In_nth _ _ []) in Hi as (k & Hk & <-). exists k. rewrite HD in Hk. split; [exact Hk|now apply HDn]. }
  assert (Hb : (0 < b)%nat). { apply in_map_iff in HB1 as (idx & Hidx & Hi). specialize (Hne idx Hi). rewrite <- Hidx. destruct idx; [congruence|]. cbn [length]. lia. }
  assert (HS := sample_spec b (fun i => Z.to_nat (nth i y (-1)%Z)) Hb D O g). cbv zeta in HS.
  destruct (sample_classes G choice b D g) as [s0 g0] eqn:ES. cbn [fst] in HS. destruct HS as (S1 & S2 & _ & S4).
  { intros idx Hi. destruct (HIn idx Hi) as (k & Hk & ->). split; [apply class_nodes_NoDup|]. apply HB2, in_map, Hi. }
  { intros k i Hi. destruct (Nat.lt_ge_cases k (Z.to_nat classes)) as [Hk|Hk]; [|rewrite nth_overflow in Hi by lia; destruct Hi]. rewrite HDn in Hi by exact Hk. apply class_nodes_In in Hi as (_ & _ & ->). lia. }
  intros [= <- <- <-]. rewrite HD in S1, S4. exists b. split; [exact Hb|]. split.
  { intros c m Hcr Hm. apply class_count_unique in Hm as ->. apply HB2. apply in_map_iff. exists (class_nodes y train c). split; [reflexivity|]. replace c with (Z.of_nat (Z.to_nat c)) by lia. rewrite <- HDn by lia. apply nth_In. lia. }
  split.
  { apply in_map_iff in HB1 as (idx & Hidx & Hi). destruct (HIn idx Hi) as (k & Hk & ->). exists (Z.of_nat k). split; [lia|]. rewrite <- Hidx. apply class_count. }
  split; [exact S1|]. split; [exact S2|]. assert (HQ : forall t, (t < b * Z.to_nat classes)%nat -> (t / b < Z.to_nat classes)%nat) by (intros t Ht; apply Nat.div_lt_upper_bound; lia). split.
  { intros t Ht. specialize (S4 t Ht). rewrite HDn in S4 by now apply HQ. now apply class_nodes_In. }
  split; [unfold label_matrix; now rewrite map_length, seq_length|]. intros t Ht. split; [now apply HQ|]. unfold label_matrix. rewrite (nth_map_in _ _ t O) by (rewrite seq_length; exact Ht). rewrite seq_nth by exact Ht. cbn [Nat.add]. apply map_ext. intros c. now rewrite Nat.eqb_sym.
Qed.
Lemma support_returns y train classes g : (exists r, sample_support G choice y train classes g = Ok r) <-> (0 < classes)%Z /\ forall c, (0 <= c < classes)%Z -> exists i, labelled y train c i.
Proof.
  unfold sample_support. cbv zeta. set (D := map (fun c => class_nodes y train (Z.of_nat c)) (seq 0 (Z.to_nat classes))). destruct (existsb _ D) eqn:EX.
  - split; [intros [r Hr]; discriminate|]. intros [_ H]. exfalso. apply existsb_exists in EX as (idx & Hi & He). unfold D in Hi. apply in_map_iff in Hi as (k & <- & Hk). apply in_seq in Hk. destruct (H (Z.of_nat k) ltac:(lia)) as (i & Hl). apply class_nodes_In in Hl. destruct (class_nodes y train (Z.of_nat k)); [destruct Hl|discriminate].
  - assert (HA : forall c, (0 <= c < classes)%Z -> exists i, labelled y train c i).
    { intros c Hcr. destruct (class_nodes y train c) as [|i r] eqn:Ec; [|exists i; apply class_nodes_In; rewrite Ec; now left]. exfalso. enough (existsb (fun idx : list nat => match idx with [] => true | _ => false end) D = true) by congruence. apply existsb_exists. exists []. split; [|reflexivity]. rewrite <- Ec. unfold D. apply in_map_iff. exists (Z.to_nat c). split; [f_equal; lia|apply in_seq; lia]. }
    destruct D as [|d0 D0] eqn:ED.
    + split; [intros [r Hr]; discriminate|]. intros [H _]. exfalso. apply (f_equal (@length _)) in ED. unfold D in ED. rewrite map_length, seq_length in ED. cbn in ED. lia.
    + destruct (sample_classes G choice _ _ g) as [s g']. split; [|intros _; eexists; reflexivity]. intros _. split; [|exact HA]. apply (f_equal (@length _)) in ED. unfold D in ED. rewrite map_length, seq_length in ED. cbn in ED. lia.
Qed.
Lemma support_error y train classes g e : sample_support G choice y train classes g = Err e -> e = ValueError.
Proof.
  unfold sample_support. cbv zeta. destruct (existsb _ _); [now intros [= <-]|]. destruct (map _ (seq 0 (Z.to_nat classes))) as [|a l]; [now intros [= <-]|]. destruct (sample_classes G choice _ _ g); discriminate.
Qed.
End Support.

(* ---- soft nearest neighbours *)
Lemma snn_entry softmax unit_row tau k query supports labels m cls i c : softmax_ok softmax -> length supports = m -> indicates k m cls labels -> (i < length query)%nat -> (c < k)%nat ->
  nth c (nth i (snn softmax unit_row tau k query supports labels) []) 0 == share softmax unit_row tau m cls (nth i query []) (fun t => nth t supports []) c.
Proof.
  intros Hs Hm [HL HI] Hi Hcc. unfold snn. rewrite (nth_map_in _ _ i []) by exact Hi. cbv zeta. rewrite (nth_map_in _ _ c O) by (rewrite seq_length; exact Hcc). rewrite seq_nth by exact Hcc. cbn [Nat.add].
  unfold share. cbv zeta. assert (HS : map (fun s => dot (unit_row (nth i query [])) (unit_row s) / tau) supports = map (fun t => dot (unit_row (nth i query [])) (unit_row (nth t supports [])) / tau) (seq 0 m)).
  { rewrite <- (map_map (fun t => nth t supports []) (fun s => dot (unit_row (nth i query [])) (unit_row s) / tau)). f_equal. rewrite <- Hm. clear. induction supports as [|a l IH]; [reflexivity|]. cbn [length seq map nth]. f_equal. rewrite <- seq_shift, map_map. exact IH. }
  rewrite HS. set (w := softmax _). assert (Hw : length w = m) by (unfold w; rewrite (proj1 (Hs _)), map_length, seq_length; reflexivity).
  transitivity (Qsum (map (fun t => nth t w 0 * (if Nat.eqb (cls t) c then 1 else 0)) (seq 0 m))).
  - assert (HC : map (fun p : Q * list Q => fst p * nth c (snd p) 0) (combine w labels) = map (fun t => nth t w 0 * nth c (nth t labels []) 0) (seq 0 m)).
    { clearbody w. clear -Hw HL. revert w labels Hw HL. induction m as [|m IH]; intros [|a w] [|b l] H1 H2; try discriminate; [reflexivity|]. cbn [combine map seq nth fst snd]. f_equal. rewrite <- seq_shift, map_map. cbn [nth]. apply IH; [now injection H1|now injection H2]. }
    rewrite HC. apply Qsum_ext. intros t Ht. apply in_seq in Ht. destruct (HI t ltac:(lia)) as [_ ->]. rewrite (nth_map_in _ _ c O) by (rewrite seq_length; exact Hcc). rewrite seq_nth by exact Hcc. cbn [Nat.add]. rewrite (Nat.eqb_sym c). reflexivity.
  - generalize (seq 0 m). intros l. induction l as [|t l IH]; [reflexivity|]. cbn [map filter]. rewrite Qsum_cons, IH. destruct (Nat.eqb (cls t) c); cbn [map]; rewrite ?Qsum_cons; ring.
Qed.
Lemma share_distribution softmax unit_row tau m k cls row sup : softmax_ok softmax -> (0 < m)%nat -> (forall t, (t < m)%nat -> (cls t < k)%nat) ->
  (forall c, 0 <= share softmax unit_row tau m cls row sup c) /\ Qsum (map (share softmax unit_row tau m cls row sup) (seq 0 k)) == 1.
Proof.
  intros Hs Hm Hk. set (z := map (fun t => dot (unit_row row) (unit_row (sup t)) / tau) (seq 0 m)). destruct (Hs z) as (L & N & S). assert (Hz : length z = m) by (unfold z; now rewrite map_length, seq_length).
  assert (Hw : forall t, 0 <= nth t (softmax z) 0) by (intros t; destruct (nth_in_or_default t (softmax z) 0) as [H|H]; [now apply N|rewrite H; lra]).
  split.
  - intros c. unfold share. cbv zeta. fold z. apply Qsum_nonneg. intros x Hx. apply in_map_iff in Hx as (t & <- & _). apply Hw.
  - transitivity (Qsum (map (fun t => nth t (softmax z) 0) (seq 0 m))).
    + unfold share. cbv zeta. fold z. transitivity (Qsum (map (fun c => Qsum (map (fun t => if Nat.eqb (cls t) c then nth t (softmax z) 0 else 0) (seq 0 m))) (seq 0 k))).
      * apply Qsum_ext. intros c _. generalize (seq 0 m). intros l. induction l as [|t l IH]; [reflexivity|]. cbn [map filter]. destruct (Nat.eqb (cls t) c); cbn [map]; rewrite ?Qsum_cons, IH; ring.
      * rewrite Qsum_swap. apply Qsum_ext. intros t Ht. apply in_seq in Ht. specialize (Hk t ltac:(lia)). clear -Hk.
        rewrite <- (sum_pick (fun _ => nth t (softmax z) 0) (cls t) (seq 0 k)) by (try apply seq_NoDup; apply in_seq; lia). apply Qsum_ext. intros c _. rewrite (Nat.eqb_sym c). destruct (Nat.eqb (cls t) c); ring.
    + rewrite <- S by (intros E; rewrite E in Hz; cbn in Hz; lia). rewrite <- Hz, <- L. clear. induction (softmax z) as [|a l IH]; [reflexivity|]. cbn [length seq map nth]. rewrite !Qsum_cons, <- seq_shift, map_map. cbn [nth]. now rewrite IH.
Qed.

(* ---- views *)
Lemma masked_part {A} (keep : list bool) (E : list A) : length keep = length E -> part (masked keep E) E.
Proof. revert E. induction keep as [|b keep IH]; intros [|e E] H; try discriminate; [constructor|]. unfold masked. cbn [combine filter fst]. injection H as H. destruct b; cbn [map snd]; constructor; now apply IH. Qed.
Lemma part_refl {A} (l : list A) : part l l. Proof. induction l; now constructor. Qed.
Lemma part_In {A} (l l' : list A) : part l l' -> forall x, In x l -> In x l'.
Proof. induction 1 as [|a l l' H IH|a l l' H IH]; intros x Hx; [exact Hx|destruct Hx as [<-|Hx]; [now left|right; now apply IH]|right; now apply IH]. Qed.
Section Drop.
Variable G : Type.
Variable random : G -> nat -> list Q * G.
Hypothesis Hr : draws_ok random.
Lemma drop_features_spec p width X g : (forall r, In r X -> length r = width) -> let X' := fst (drop_features G random p width X g) in
  length X' = length X /\ exists hidden : nat -> bool, (forall i, (i < length X)%nat -> nth i X' [] = map (fun c => if hidden c then 0 else nth c (nth i X []) 0) (seq 0 width)) /\
    (p <= 0 -> forall c, hidden c = false) /\ (1 <= p -> forall c, (c < width)%nat -> hidden c = true).
Proof.
  intros HX. assert (HI : forall i, (i < length X)%nat -> nth i X [] = map (fun c => nth c (nth i X []) 0) (seq 0 width)) by (intros i Hi; apply list_as_map, HX, nth_In, Hi).
  unfold drop_features. destruct (Qle_bool p 0) eqn:Ep; [cbn [fst]; split; [reflexivity|]; exists (fun _ => false); split; [exact HI|]; split; [reflexivity|intros H; apply Qle_bool_iff in Ep; lra]|].
  destruct (Hr g width) as [HL HV]. destruct (random g width) as [u g']. cbn [fst] in *. set (mask := map (fun v => Qltb v p) u).
  assert (HP : ~ p <= 0) by (intros H; apply Qle_bool_iff in H; congruence).
  assert (H1 : 1 <= p -> forall c, (c < width)%nat -> nth c mask false = true) by (intros H c Hcw; unfold mask; rewrite (nth_map_in _ _ c 0) by lia; apply Qltb_true; destruct (HV (nth c u 0) ltac:(apply nth_In; lia)); lra).
  destruct (existsb (fun b => b) mask) eqn:EM; cbn [fst].
  - split; [now rewrite map_length|]. exists (fun c => nth c mask false). split; [intros i Hi; now rewrite (nth_map_in _ _ i []) by exact Hi|]. split; [contradiction|exact H1].
  - split; [reflexivity|]. exists (fun c => nth c mask false). assert (HF : forall c, nth c mask false = false) by (intros c; destruct (nth c mask false) eqn:Ec; [|reflexivity]; enough (existsb (fun b => b) mask = true) by congruence; apply exists_nth; now exists c).
    split; [intros i Hi; rewrite (HI i Hi) at 1; apply map_ext; intros c; now rewrite HF|]. split; [contradiction|exact H1].
Qed.
Lemma drop_edges_spec p E g : let E' := fst (drop_edges G random p E g) in part E' E /\ (E <> [] -> E' <> []) /\ (p <= 0 \/ 1 <= p -> E' = E).
Proof.
  unfold drop_edges. destruct (Qle_bool p 0) eqn:Ep; [cbn [fst]; split; [apply part_refl|]; split; [exact (fun H => H)|reflexivity]|].
  destruct (Hr g (length E)) as [HL HV]. destruct (random g (length E)) as [u g']. cbn [fst] in *. set (keep := map (fun v => Qle_bool p v) u). assert (HK : length keep = length E) by (unfold keep; now rewrite map_length).
  assert (HP : ~ p <= 0) by (intros H; apply Qle_bool_iff in H; congruence).
  destruct (existsb (fun b => b) keep) eqn:EM; cbn [fst]; [|split; [apply part_refl|]; split; [exact (fun H => H)|reflexivity]].
  split; [now apply masked_part|]. split.
  - intros _ HM. apply existsb_exists in EM as (x & Hx & ->). apply (In_nth _ _ false) in Hx as (i & Hi & Hx). assert (HZ : length (masked keep E) = O) by now rewrite HM. revert Hi Hx HZ HK. generalize i. generalize E. clear. induction keep as [|b k IH]; intros [|e E] i Hi Hx HZ HK; try discriminate; [cbn in Hi; lia|]. unfold masked in HZ. cbn [combine filter fst] in HZ. destruct b; cbn [map length] in HZ; [discriminate|].
    destruct i as [|i]; [discriminate|]. apply (IH E i); [cbn in Hi; lia|exact Hx|exact HZ|now injection HK].
  - intros [H|H]; [contradiction|]. exfalso. apply existsb_exists in EM as (x & Hx & ->). unfold keep in Hx. apply in_map_iff in Hx as (v & Hv & Hin). apply Qle_bool_iff in Hv. destruct (HV v Hin). lra.
Qed.
Lemma kept_masked p : forall u (E : list edge) (P : nat -> Prop) t0, length u = length E -> (forall t, (t < length E)%nat -> (P (t0 + t)%nat <-> p <= nth t u 0)) -> kept_at P t0 E (masked (map (fun v => Qle_bool p v) u) E).
Proof using Type.
  induction u as [|x u IH]; intros [|e E] P t0 HL HP; try discriminate; [constructor|]. unfold masked. cbn [map combine filter fst]. injection HL as HL. assert (H0 := HP O ltac:(cbn; lia)). rewrite Nat.add_0_r in H0. cbn [nth] in H0.
  assert (HS : kept_at P (S t0) E (masked (map (fun v => Qle_bool p v) u) E)) by (apply IH; [exact HL|]; intros t Ht; specialize (HP (S t) ltac:(cbn; lia)); rewrite Nat.add_succ_r in HP; exact HP).
  destruct (Qle_bool p x) eqn:Ex; cbn [map snd]; [apply kept_yes; [apply H0, Qle_bool_iff, Ex|exact HS]|apply kept_no; [|exact HS]]. intros H. apply H0, Qle_bool_iff in H. congruence.
Qed.
Lemma drop_features_draws p width X g : (forall r, In r X -> length r = width) ->
  let r := drop_features G random p width X g in
  snd r = (if Qlt_le_dec 0 p then snd (random g width) else g) /\ length (fst r) = length X /\
  forall i c, (i < length X)%nat -> (c < width)%nat -> nth c (nth i (fst r) []) 0 = if Qlt_le_dec 0 p then (if Qlt_le_dec (nth c (fst (random g width)) 0) p then 0 else nth c (nth i X []) 0) else nth c (nth i X []) 0.
Proof.
  intros HX. unfold drop_features. destruct (Qle_bool p 0) eqn:Ep.
  - apply Qle_bool_iff in Ep. destruct (Qlt_le_dec 0 p) as [H|H]; [lra|]. cbn [fst snd]. split; [reflexivity|]. split; reflexivity.
  - assert (HP : 0 < p) by (apply Qnot_le_lt; intros H; apply Qle_bool_iff in H; congruence). destruct (Qlt_le_dec 0 p) as [_|H]; [|lra]. destruct (Hr g width) as [HL HV]. destruct (random g width) as [u g']. cbn [fst snd] in *.
    set (mask := map (fun v => Qltb v p) u). assert (HM : forall c, (c < width)%nat -> nth c mask false = Qltb (nth c u 0) p) by (intros c Hc; unfold mask; now rewrite (nth_map_in _ _ c 0) by lia).
    destruct (existsb (fun b => b) mask) eqn:EM; cbn [fst snd]; (split; [reflexivity|]).
    + split; [now rewrite map_length|]. intros i c Hi Hc. rewrite (nth_map_in _ _ i []) by exact Hi. rewrite (nth_map_in _ _ c O) by (rewrite seq_length; exact Hc). rewrite seq_nth by exact Hc. cbn [Nat.add]. rewrite HM by exact Hc.
      destruct (Qlt_le_dec (nth c u 0) p) as [H|H]; [apply Qltb_true in H|apply Qltb_false in H]; rewrite H; reflexivity.
    + split; [reflexivity|]. intros i c Hi Hc. destruct (Qlt_le_dec (nth c u 0) p) as [H|H]; [|reflexivity]. exfalso. enough (existsb (fun b => b) mask = true) by congruence. apply exists_nth. exists c. rewrite HM by exact Hc. now apply Qltb_true.
Qed.
Lemma drop_edges_draws p E g : let E' := fst (drop_edges G random p E g) in let u := fst (random g (length E)) in
  ((p <= 0 \/ forall t, (t < length E)%nat -> nth t u 0 < p) -> E' = E) /\ (0 < p -> (exists t, (t < length E)%nat /\ p <= nth t u 0) -> kept_at (fun t => p <= nth t u 0) 0 E E').
Proof.
  unfold drop_edges. destruct (Qle_bool p 0) eqn:Ep; [apply Qle_bool_iff in Ep; cbn [fst]; split; [reflexivity|intros; lra]|].
  assert (HP : ~ p <= 0) by (intros H; apply Qle_bool_iff in H; congruence). destruct (Hr g (length E)) as [HL _]. destruct (random g (length E)) as [u g']. cbn [fst] in *.
  destruct (existsb (fun b => b) (map (fun v => Qle_bool p v) u)) eqn:EM; cbn [fst]; split.
  - intros [H|H]; [contradiction|]. exfalso. apply exists_nth in EM as [t Ht]. destruct (Nat.lt_ge_cases t (length u)) as [Hl|Hl]; [|rewrite nth_overflow in Ht by (rewrite map_length; exact Hl); discriminate]. rewrite (nth_map_in _ _ t 0) in Ht by exact Hl. apply Qle_bool_iff in Ht. specialize (H t ltac:(lia)). lra.
  - intros _ _. apply kept_masked; [exact HL|]. intros t Ht. reflexivity.
  - reflexivity.
  - intros _ (t & Ht & H). exfalso. enough (existsb (fun b => b) (map (fun v => Qle_bool p v) u) = true) by congruence. apply exists_nth. exists t. rewrite (nth_map_in _ _ t 0) by lia. now apply Qle_bool_iff.
Qed.
End Drop.

(* ---- targets *)
Lemma row_largest_spec r : r <> [] -> (exists x, In x r /\ row_largest r == x) /\ forall x, In x r -> x <= row_largest r.
Proof.
  destruct r as [|a r]; [congruence|]. intros _. cbn [row_largest]. induction r as [|b r [(x & Hx & Ex) IH2]]; cbn [fold_right]; [split; [exists a; split; [now left|reflexivity]|intros x [<-|[]]; lra]|].
  split.
  - destruct (Q.max_spec b (fold_right Qmax a r)) as [[H E]|[H E]]; [exists x; split; [destruct Hx as [->|Hx]; [now left|right; now right]|rewrite E; exact Ex]|exists b; split; [right; now left|exact E]].
  - assert (H1 := Q.le_max_l b (fold_right Qmax a r)). assert (H2 := Q.le_max_r b (fold_right Qmax a r)). intros z [<-|[<-|Hz]]; [specialize (IH2 a (or_introl eq_refl)); lra|lra|specialize (IH2 z (or_intror Hz)); lra].
Qed.
Lemma row_largest_above r t : r <> [] -> (t < row_largest r <-> exists c, (c < length r)%nat /\ t < nth c r 0).
Proof.
  intros Hne. destruct (row_largest_spec r Hne) as [(x & Hx & Ex) HM]. split.
  - intros H. apply (In_nth _ _ 0) in Hx as (c & Hcc & Hx). exists c. split; [exact Hcc|]. rewrite Hx. lra.
  - intros (c & Hcc & H). specialize (HM (nth c r 0) (nth_In _ _ Hcc)). lra.
Qed.
Lemma included_In thres train targets k i : (0 < k)%nat -> (forall r, In r targets -> length r = k) -> In i (included thres train targets) <->
  (i < length targets)%nat /\ (nth i train false = true \/ exists c, (c < k)%nat /\ thres < nth c (nth i targets []) 0).
Proof.
  intros Hk HT. unfold included. rewrite filter_In, in_seq, Bool.orb_true_iff, Qltb_true. cbn [Nat.add].
  split; [intros [[_ Hi] H]|intros [Hi H]]; (split; [lia|]); assert (HR : length (nth i targets []) = k) by (apply HT, nth_In; lia); assert (Hne : nth i targets [] <> []) by (intros E; rewrite E in HR; cbn in HR; lia); rewrite (row_largest_above _ _ Hne), HR in *; tauto.
Qed.
