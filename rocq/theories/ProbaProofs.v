From Coq Require Import List ZArith Lia Bool QArith Permutation Sorted Lqa ZifyBool ZifyNat.
From Verif Require Import Prelude ListFacts QFacts InductModel InductSpec InductProofs EnsembleModel EnsembleSpec.
Import ListNotations.
Open Scope Q_scope.

Lemma total_scaled k : forall r s : list Q, length r = length s -> (forall c, nth c r 0 == nth c s 0 * k) -> total r == total s * k.
Proof.
  induction r as [|x r IH]; intros [|y s] L H; cbn in L; try lia; cbn.
  - unfold total. cbn. ring.
  - pose proof (H 0%nat) as H0. cbn in H0. assert (IH' : total r == total s * k).
    { apply IH; [lia|]. intros c. apply (H (S c)). }
    unfold total in *. cbn. rewrite H0, IH'. ring.
Qed.

Lemma nth_map_Q (f : Q -> Q) l c : f 0 == 0 -> nth c (map f l) 0 == f (nth c l 0).
Proof.
  intros H. destruct (le_lt_dec (length l) c).
  - rewrite !nth_overflow by (try rewrite map_length; assumption). now rewrite H.
  - rewrite (nth_indep _ 0 (f 0)) by (rewrite map_length; assumption). rewrite map_nth. reflexivity.
Qed.

Lemma total_div s l : total (map (fun x => x / s) l) == total l / s.
Proof.
  unfold total. induction l; cbn; [unfold Qdiv; ring|]. rewrite IHl. unfold Qdiv. ring.
Qed.

Lemma normalise_distribution r : (forall x, In x r -> 0 <= x) -> 0 < total r -> distribution_of r (normalise_row r).
Proof.
  intros H P. unfold normalise_row. change (Qsum r) with (total r).
  destruct (Qeq_bool (total r) 0) eqn:E; [apply Qeq_bool_iff in E; lra|].
  assert (N : ~ total r == 0) by lra.
  split; [apply map_length|]. split; [|split].
  - intros x Hx. apply in_map_iff in Hx. destruct Hx as (y & <- & Hy). apply Qle_shift_div_l; [exact P|].
    rewrite Qmult_0_l. auto.
  - rewrite total_div. unfold Qdiv. apply Qmult_inv_r. exact N.
  - intros c. rewrite (nth_map_Q (fun x => x / total r)) by (unfold Qdiv; ring). field. exact N.
Qed.

Lemma distribution_scale r s p k : 0 < k -> length r = length s -> (forall c, nth c r 0 == nth c s 0 * k) ->
  distribution_of r p -> distribution_of s p.
Proof.
  intros K L H (A & B & C & D). split; [congruence|]. split; [exact B|]. split; [exact C|].
  intros c. specialize (D c). rewrite (total_scaled k r s L H), (H c) in D.
  assert (E : (nth c p 0 * total s) * k == nth c s 0 * k) by (rewrite <- D; ring).
  apply Qmult_inj_r in E; [exact E|lra].
Qed.

(* ----- element-wise means ----- *)
Lemma add_rows_spec w a b : length a = w -> length b = w ->
  length (add_rows a b) = w /\ forall c, nth c (add_rows a b) 0 == nth c a 0 + nth c b 0.
Proof.
  intros <- Hb. unfold add_rows. split; [rewrite map_length, combine_length; lia|].
  revert b Hb. induction a as [|x a IH]; intros [|y b] Hb c; cbn in Hb; try lia.
  - destruct c; reflexivity.
  - destruct c; cbn; [reflexivity|]. apply IH. lia.
Qed.

Lemma fold_add_rows w rest : forall acc, length acc = w -> (forall r, In r rest -> length r = w) ->
  length (fold_left add_rows rest acc) = w /\
  forall c, nth c (fold_left add_rows rest acc) 0 == nth c acc 0 + total (map (fun r => nth c r 0) rest).
Proof.
  induction rest as [|r rest IH]; intros acc Ha Hr; cbn [fold_left].
  - split; [exact Ha|]. intros c. unfold total. cbn. ring.
  - destruct (add_rows_spec w acc r Ha (Hr r (or_introl eq_refl))) as [L E].
    destruct (IH (add_rows acc r) L (fun x Hx => Hr x (or_intror Hx))) as [L' E'].
    split; [exact L'|]. intros c. rewrite E', E. unfold total. cbn. ring.
Qed.

Lemma mean_rows_spec w rs : rs <> [] -> (forall r, In r rs -> length r = w) ->
  length (mean_rows rs) = w /\
  forall c, nth c (mean_rows rs) 0 == total (map (fun r => nth c r 0) rs) * / inject_Z (lenZ rs).
Proof.
  intros NE H. unfold mean_rows. destruct rs as [|r rest]; [congruence|]. set (n := inject_Z (lenZ (r :: rest))). clearbody n.
  destruct (fold_add_rows w rest r (H r (or_introl eq_refl)) (fun x Hx => H x (or_intror Hx))) as [L E].
  split; [rewrite map_length; exact L|]. intros c.
  rewrite (nth_map_Q (fun x => x / n)) by (unfold Qdiv; ring). rewrite E. unfold total. cbn. unfold Qdiv. ring.
Qed.

(* ----- aligned scores ----- *)
Lemma align_fold c : forall classes r v, length r = length classes -> NoDup classes ->
  let q := fold_left (fun v p => if Z.eqb (fst p) c then snd p else v) (combine classes r) v in
  (exists j, (j < length classes)%nat /\ nth j classes 0%Z = c /\ q = nth j r 0) \/ (~ In c classes /\ q = v).
Proof.
  induction classes as [|a classes IH]; intros [|x r] v L N; cbn [length] in L; try lia.
  - right. split; [intros []|reflexivity].
  - inversion N as [|? ? N1 N2]; subst. cbn [combine fold_left fst snd].
    destruct (IH r (if Z.eqb a c then x else v) ltac:(lia) N2) as [(j & Lj & Ej & Eq)|[Hn Eq]]; cbv zeta in *.
    + left. exists (S j). cbn [length nth]. split; [lia|]. split; [exact Ej|exact Eq].
    + destruct (Z.eqb a c) eqn:E.
      * apply Z.eqb_eq in E. left. exists 0%nat. cbn. split; [lia|]. split; [exact E|exact Eq].
      * right. split; [|exact Eq]. apply Z.eqb_neq in E. intros [H|H]; [congruence|contradiction].
Qed.

Lemma align_row_spec union classes r g : length r = length classes -> NoDup classes -> (g < length union)%nat ->
  score_for classes r (nth g union 0%Z) (nth g (align_row union classes r) 0).
Proof.
  intros L N Hg. unfold align_row.
  rewrite (nth_indep _ 0 (fold_left (fun v p => if Z.eqb (fst p) 0 then snd p else v) (combine classes r) 0)) by (rewrite map_length; exact Hg).
  rewrite (map_nth (fun c => fold_left (fun v p => if Z.eqb (fst p) c then snd p else v) (combine classes r) 0)).
  destruct (align_fold (nth g union 0%Z) classes r 0 L N) as [(j & Lj & Ej & Eq)|[Hn Eq]]; [left; eauto|right; auto].
Qed.

Lemma score_for_nonneg classes r c q : length r = length classes -> (forall x, In x r -> 0 <= x) -> score_for classes r c q -> 0 <= q.
Proof. intros L H [(j & Lj & _ & ->)|(_ & ->)]; [apply H, nth_In; lia|lra]. Qed.

(* ----- tri_proba ----- *)
Definition good_clf (n : nat) (s : scored) : Prop :=
  exists cs, sc_classes s = Some cs /\ StronglySorted Z.lt cs /\ length cs = sc_cols s /\ length (sc_rows s) = n /\
    forall r, In r (sc_rows s) -> length r = sc_cols s /\ forall x, In x r -> 0 <= x.

Definition classes_of (s : scored) : list Z := match sc_classes s with Some c => c | None => [] end.

Lemma sortedZ_NoDup l : StronglySorted Z.lt l -> NoDup l.
Proof.
  induction 1 as [|a l S IH F]; constructor; auto. intros H. rewrite Forall_forall in F. specialize (F a H). lia.
Qed.

Lemma good_clf_facts n s : good_clf n s -> sc_classes s = Some (classes_of s) /\ StronglySorted Z.lt (classes_of s) /\
  length (classes_of s) = sc_cols s /\ length (sc_rows s) = n /\
  forall i, (i < n)%nat -> length (nth i (sc_rows s) []) = length (classes_of s) /\ forall x, In x (nth i (sc_rows s) []) -> 0 <= x.
Proof.
  intros (cs & E & S & L & R & H). unfold classes_of. rewrite E. split; [reflexivity|]. split; [exact S|].
  split; [exact L|]. split; [exact R|]. intros i Hi. rewrite L. apply H, nth_In. lia.
Qed.

Lemma combine_scores (cs : list Z) n clfs (row_of : scored -> list Q) :
  clfs <> [] -> (forall s, In s clfs -> length (row_of s) = length cs) ->
  (forall s, In s clfs -> forall x, In x (row_of s) -> 0 <= x) ->
  (exists s x, In s clfs /\ In x (row_of s) /\ 0 < x) -> n = lenZ clfs ->
  exists sums, length sums = length cs /\
    (forall g, (g < length cs)%nat -> nth g sums 0 = total (map (fun s => nth g (row_of s) 0) clfs)) /\ 0 < total sums /\
    distribution_of sums (normalise_row (mean_rows (map row_of clfs))).
Proof.
  intros NE L P (s0 & x0 & I0 & J0 & P0) Hn.
  assert (NE' : map row_of clfs <> []) by (destruct clfs; [congruence|discriminate]).
  assert (LL : forall r, In r (map row_of clfs) -> length r = length cs).
  { intros r Hr. apply in_map_iff in Hr. destruct Hr as (s & <- & Hs). auto. }
  destruct (mean_rows_spec (length cs) (map row_of clfs) NE' LL) as [ML ME].
  set (sums := map (fun g => total (map (fun s => nth g (row_of s) 0) clfs)) (seq 0 (length cs))).
  assert (SL : length sums = length cs) by (unfold sums; now rewrite map_length, seq_length).
  assert (SN : forall g, (g < length cs)%nat -> nth g sums 0 = total (map (fun s => nth g (row_of s) 0) clfs)).
  { intros g Hg. unfold sums. rewrite (nth_indep _ 0 (total (map (fun s => nth 0 (row_of s) 0) clfs))) by (rewrite map_length, seq_length; exact Hg).
    rewrite (map_nth (fun g => total (map (fun s => nth g (row_of s) 0) clfs))), seq_nth by exact Hg. reflexivity. }
  exists sums. split; [exact SL|]. split; [exact SN|].
  assert (K : 0 < / inject_Z (lenZ (map row_of clfs))) by (apply Qinv_lt_0_compat, lenZ_pos, NE').
  set (k := / inject_Z (lenZ (map row_of clfs))) in *. clearbody k.
  assert (MS : forall c, nth c (mean_rows (map row_of clfs)) 0 == nth c sums 0 * k).
  { intros c. destruct (le_lt_dec (length cs) c) as [G|G].
    - rewrite !nth_overflow by lia. ring.
    - rewrite ME, SN, map_map by exact G. reflexivity. }
  assert (NS : forall g, 0 <= nth g sums 0).
  { intros g. destruct (le_lt_dec (length cs) g) as [G|G]; [rewrite nth_overflow by lia; lra|]. rewrite SN by exact G.
    apply Qsum_nonneg. intros x Hx. apply in_map_iff in Hx. destruct Hx as (s & <- & Hs). apply (P s Hs), nth_In. rewrite L by exact Hs. exact G. }
  assert (TP : 0 < total sums).
  { apply (In_nth _ _ 0) in J0. destruct J0 as (g & Lg & Eg). rewrite L in Lg by exact I0.
    assert (Q1 : x0 <= nth g sums 0).
    { rewrite SN by exact Lg. rewrite <- Eg.
      assert (G : forall l, In s0 l -> (forall s, In s l -> 0 <= nth g (row_of s) 0) -> nth g (row_of s0) 0 <= total (map (fun s => nth g (row_of s) 0) l)).
      { clear. induction l as [|a l IH]; intros I H; [destruct I|]. unfold total in *. cbn.
        assert (H0 : 0 <= fold_right Qplus 0 (map (fun s => nth g (row_of s) 0) l)).
        { apply (Qsum_nonneg (map (fun s => nth g (row_of s) 0) l)). intros x Hx. apply in_map_iff in Hx. destruct Hx as (s & <- & Hs). apply H. now right. }
        destruct I as [->|I]; [lra|]. specialize (IH I (fun s Hs => H s (or_intror Hs))). specialize (H a (or_introl eq_refl)). lra. }
      apply G; [exact I0|]. intros s Hs. apply (P s Hs), nth_In. rewrite L by exact Hs. exact Lg. }
    assert (G : forall l g, (forall g, 0 <= nth g l 0) -> nth g l 0 <= total l).
    { clear. induction l as [|a l IH]; intros g H; unfold total in *; cbn.
      - destruct g; lra.
      - assert (H' : forall g, 0 <= nth g l 0) by (intros g'; apply (H (S g'))).
        assert (H0 : 0 <= fold_right Qplus 0 l).
        { apply (Qsum_nonneg l). intros x Hx. apply (In_nth _ _ 0) in Hx. destruct Hx as (j & _ & <-). apply H'. }
        pose proof (H 0%nat) as Ha. cbn in Ha. destruct g; cbn; [lra|]. specialize (IH g H'). lra. }
    specialize (G sums g NS). lra. }
  split; [exact TP|]. apply (distribution_scale (mean_rows (map row_of clfs)) sums _ k K); [congruence|exact MS|].
  apply normalise_distribution.
  - intros x Hx. apply (In_nth _ _ 0) in Hx. destruct Hx as (c & _ & <-). rewrite MS. specialize (NS c).
    apply Qmult_le_0_compat; [exact NS|lra].
  - rewrite (total_scaled k _ sums) by (auto; congruence). 
    setoid_replace 0 with (total sums * 0) by ring. apply Qmult_lt_l; assumption.
Qed.

Lemma Forall2_map_r {A B} (R : A -> B -> Prop) (f : A -> B) l : (forall a, In a l -> R a (f a)) -> Forall2 R l (map f l).
Proof. induction l; intros H; cbn; constructor; [apply H; now left|]. apply IHl. intros b Hb. apply H. now right. Qed.

Lemma existsb_false {A} (f : A -> bool) l : existsb f l = false <-> forall x, In x l -> f x = false.
Proof.
  split.
  - intros H x Hx. destruct (f x) eqn:E; [|reflexivity]. assert (existsb f l = true) by (apply existsb_exists; eauto). congruence.
  - intros H. destruct (existsb f l) eqn:E; [|reflexivity]. apply existsb_exists in E. destruct E as (x & Hx & E). rewrite H in E by exact Hx. discriminate.
Qed.

Lemma tri_proba_spec n clfs : clfs <> [] -> (forall s, In s clfs -> good_clf n s) ->
  (forall i, (i < n)%nat -> exists s x, In s clfs /\ In x (nth i (sc_rows s) []) /\ 0 < x) ->
  exists P cs, tri_proba n clfs = Ok P /\ length P = n /\ StronglySorted Z.lt cs /\
    (forall c, In c cs <-> exists s, In s clfs /\ In c (classes_of s)) /\
    forall i, (i < n)%nat -> exists sums, length sums = length cs /\ 0 < total sums /\ distribution_of sums (nth i P []) /\
      forall g, (g < length cs)%nat -> exists qs, nth g sums 0 = total qs /\
        Forall2 (fun s q => score_for (classes_of s) (nth i (sc_rows s) []) (nth g cs 0%Z) q) clfs qs.
Proof.
  intros NE G Pos. pose proof (fun s Hs => good_clf_facts n s (G s Hs)) as F.
  unfold tri_proba.
  assert (E1 : existsb (fun s => match sc_classes s with Some c => negb (Nat.eqb (length c) (sc_cols s)) | None => false end) clfs = false).
  { apply existsb_false. intros s Hs. destruct (F s Hs) as (-> & _ & L & _). rewrite L, Nat.eqb_refl. reflexivity. }
  rewrite E1. cbv zeta.
  assert (E2 : forallb (fun s => match sc_classes s with Some _ => true | None => false end) clfs = true).
  { apply forallb_forall. intros s Hs. destruct (F s Hs) as (-> & _). reflexivity. }
  rewrite E2. cbn [andb negb].
  match goal with |- context [if ?b then _ else _] => destruct b eqn:E3 end.
  - set (un := uniqueZ (flat_map (fun s => match sc_classes s with Some c => c | None => [] end) clfs)).
    eexists. exists un. split; [reflexivity|]. split; [rewrite map_length, seq_length; reflexivity|].
    split; [apply uniqueZ_ascending|]. split.
    { intros c. unfold un. rewrite uniqueZ_In, in_flat_map. unfold classes_of. reflexivity. }
    intros i Hi. rewrite nth_indep with (d' := normalise_row (mean_rows (map (fun s => align_row un (classes_of s) (nth 0 (sc_rows s) [])) clfs))) by (rewrite map_length, seq_length; exact Hi).
    rewrite (map_nth (fun i => normalise_row (mean_rows (map (fun s => align_row un (classes_of s) (nth i (sc_rows s) [])) clfs)))), seq_nth by exact Hi. cbn [plus].
    assert (SF : forall s, In s clfs -> forall g, (g < length un)%nat ->
      score_for (classes_of s) (nth i (sc_rows s) []) (nth g un 0%Z) (nth g (align_row un (classes_of s) (nth i (sc_rows s) [])) 0)).
    { intros s Hs g Hg. destruct (F s Hs) as (_ & S & _ & _ & R). apply align_row_spec; [apply R, Hi|now apply sortedZ_NoDup|exact Hg]. }
    assert (AL : forall s, length (align_row un (classes_of s) (nth i (sc_rows s) [])) = length un) by (intros s; apply map_length).
    destruct (combine_scores un (lenZ clfs) clfs (fun s => align_row un (classes_of s) (nth i (sc_rows s) []))) as (sums & A & B & T & C); auto.
    + intros s Hs x Hx. apply (In_nth _ _ 0) in Hx. destruct Hx as (g & Lg & <-). rewrite AL in Lg.
      destruct (F s Hs) as (_ & _ & _ & _ & R). destruct (R i Hi) as [R1 R2]. apply (score_for_nonneg _ _ _ _ R1 R2 (SF s Hs g Lg)).
    + destruct (Pos i Hi) as (s & x & Hs & Hx & Px). exists s. 
      destruct (F s Hs) as (Es & S & _ & _ & R). destruct (R i Hi) as [R1 _].
      apply (In_nth _ _ 0) in Hx. destruct Hx as (j & Lj & Ej).
      assert (Hc : In (nth j (classes_of s) 0%Z) un).
      { unfold un. rewrite uniqueZ_In. apply in_flat_map. exists s. split; [exact Hs|]. apply nth_In. fold (classes_of s). rewrite <- R1. exact Lj. }
      apply (In_nth _ _ 0%Z) in Hc. destruct Hc as (g & Lg & Eg).
      exists (nth g (align_row un (classes_of s) (nth i (sc_rows s) [])) 0). split; [exact Hs|].
      split; [apply nth_In; rewrite AL; exact Lg|].
      destruct (SF s Hs g Lg) as [(j' & Lj' & Ej' & ->)|[Hn _]].
      * rewrite Eg in Ej'. assert (j' = j). { apply (proj1 (NoDup_nth (classes_of s) 0%Z) (sortedZ_NoDup _ S)); [exact Lj'|rewrite <- R1; exact Lj|exact Ej']. } subst j'. rewrite Ej. exact Px.
      * exfalso. apply Hn. rewrite Eg. apply nth_In. rewrite <- R1. exact Lj.
    + exists sums. split; [exact A|]. split; [exact T|]. split; [exact C|]. intros g Hg.
      exists (map (fun s => nth g (align_row un (classes_of s) (nth i (sc_rows s) [])) 0) clfs). split; [apply B, Hg|].
      apply Forall2_map_r. intros s Hs. now apply SF.
  - apply orb_false_iff in E3. destruct E3 as [_ E3]. destruct clfs as [|s0 rest] eqn:Ec; [congruence|]. rewrite <- Ec in *.
    assert (Same : forall s, In s clfs -> classes_of s = classes_of s0).
    { intros s Hs. rewrite Ec in Hs. destruct Hs as [->|Hs]; [reflexivity|].
      pose proof (proj1 (existsb_false _ _) E3 s Hs) as E. apply negb_false_iff in E. unfold same_list in E.
      destruct (list_eq_dec Z.eq_dec _ _) as [E'|]; [exact E'|discriminate]. }
    assert (I0 : In s0 clfs) by (rewrite Ec; now left).
    eexists. exists (classes_of s0). split; [reflexivity|]. split; [rewrite map_length, seq_length; reflexivity|].
    split; [apply (F s0 I0)|]. split.
    { intros c. split; [intros Hc; exists s0; auto|]. intros (s & Hs & Hc). rewrite <- (Same s Hs). exact Hc. }
    intros i Hi. rewrite nth_indep with (d' := normalise_row (mean_rows (map (fun s => nth 0 (sc_rows s) []) clfs))) by (rewrite map_length, seq_length; exact Hi).
    rewrite (map_nth (fun i => normalise_row (mean_rows (map (fun s => nth i (sc_rows s) []) clfs)))), seq_nth by exact Hi. cbn [plus].
    destruct (combine_scores (classes_of s0) (lenZ clfs) clfs (fun s => nth i (sc_rows s) [])) as (sums & A & B & T & C); auto.
    + intros s Hs. rewrite <- (Same s Hs). apply (F s Hs), Hi.
    + intros s Hs. apply (F s Hs), Hi.
    + exists sums. split; [exact A|]. split; [exact T|]. split; [exact C|]. intros g Hg.
      exists (map (fun s => nth g (nth i (sc_rows s) []) 0) clfs). split; [apply B, Hg|].
      apply Forall2_map_r. intros s Hs. left. exists g. rewrite (Same s Hs). auto.
Qed.

(* ----- arg-max ----- *)
Lemma predicts_scale r p k : 0 < k -> length p = length r -> (forall c, nth c p 0 * k == nth c r 0) -> forall c, predicts p c <-> predicts r c.
Proof.
  intros K L H c. unfold predicts. rewrite L.
  assert (Le : forall a b, nth a p 0 <= nth b p 0 <-> nth a r 0 <= nth b r 0).
  { intros a b. rewrite <- !H. symmetry. rewrite !(Qmult_comm _ k). apply Qmult_le_l. exact K. }
  assert (Lt : forall a b, nth a p 0 < nth b p 0 <-> nth a r 0 < nth b r 0).
  { intros a b. rewrite <- !H. symmetry. rewrite !(Qmult_comm _ k). apply Qmult_lt_l. exact K. }
  split; intros (A & B & C); (split; [exact A|]); split; intros j Hj; try (apply Le; now apply B); apply Lt; now apply C.
Qed.

Lemma distribution_predicts s p c : 0 < total s -> distribution_of s p -> (predicts p c <-> predicts s c).
Proof. intros P (L & _ & _ & H). apply (predicts_scale s p (total s)); auto. Qed.

Lemma distribution_total s p : distribution_of s p -> ~ total s == 0 \/ forall c, nth c s 0 == 0.
Proof.
  intros (_ & _ & _ & H). destruct (Qeq_dec (total s) 0) as [E|E]; [right|now left].
  intros c. rewrite <- (H c), E. ring.
Qed.

(* scores that sum to a negative number are turned upside down *)
Lemma normalise_negative r c : total r < 0 -> predicts (normalise_row r) c -> forall j, (j < length r)%nat -> nth c r 0 <= nth j r 0.
Proof.
  intros N (_ & H & _) j Hj. unfold normalise_row in H. change (Qsum r) with (total r) in H.
  destruct (Qeq_bool (total r) 0) eqn:E; [apply Qeq_bool_iff in E; lra|].
  rewrite map_length in H. specialize (H j Hj).
  rewrite !(nth_map_Q (fun x => x / total r)) in H by (unfold Qdiv; ring).
  assert (A : forall x, x == - ((x / total r) * - total r)) by (intros x; field; lra).
  rewrite (A (nth c r 0)), (A (nth j r 0)). apply Qopp_le_compat. apply Qmult_le_compat_r; [exact H|lra].
Qed.

Lemma look_up_ok cs idx : (forall i, In i idx -> (i < length cs)%nat) -> look_up cs idx = Ok (map (fun i => nth i cs 0%Z) idx).
Proof.
  induction idx as [|i idx IH]; intros H; cbn; [reflexivity|].
  rewrite (nth_error_nth' cs 0%Z) by (apply H; now left). rewrite IH by (intros j Hj; apply H; now right). reflexivity.
Qed.

Lemma distribution_nonempty s p : distribution_of s p -> p <> [].
Proof. intros (_ & _ & T & _) ->. unfold total in T. cbn in T. discriminate. Qed.

Lemma predict_from_proba n cs (P : list (list Q)) : length P = n ->
  (forall i, (i < n)%nat -> exists sums, length sums = length cs /\ 0 < total sums /\ distribution_of sums (nth i P [])) ->
  exists Y, look_up cs (map argmax P) = Ok Y /\ length Y = n /\
    forall i, (i < n)%nat -> exists g, (g < length cs)%nat /\ nth i Y 0%Z = nth g cs 0%Z /\
      forall sums, length sums = length cs -> 0 < total sums -> distribution_of sums (nth i P []) -> predicts sums g.
Proof.
  intros L H. 
  assert (A : forall i, (i < n)%nat -> predicts (nth i P []) (argmax (nth i P [])) /\ length (nth i P []) = length cs).
  { intros i Hi. destruct (H i Hi) as (sums & LS & T & D). split; [apply argmax_iff; [exact (distribution_nonempty _ _ D)|reflexivity]|].
    destruct D as (LD & _). congruence. }
  eexists. split.
  - apply look_up_ok. intros j Hj. apply in_map_iff in Hj. destruct Hj as (r & <- & Hr).
    apply (In_nth _ _ []) in Hr. destruct Hr as (i & Hi & <-). rewrite L in Hi. destruct (A i Hi) as [(Lt & _) E]. rewrite <- E. exact Lt.
  - split; [now rewrite !map_length|]. intros i Hi. destruct (A i Hi) as [Pr E]. exists (argmax (nth i P [])).
    split; [rewrite <- E; apply Pr|]. split.
    + rewrite map_map. rewrite (nth_indep _ 0%Z (nth (argmax []) cs 0%Z)) by (rewrite map_length; lia).
      apply (map_nth (fun r => nth (argmax r) cs 0%Z)).
    + intros sums LS T D. apply (distribution_predicts sums _ _ T D). exact Pr.
Qed.

Lemma tri_predict_spec n clfs cs : clfs <> [] -> (forall s, In s clfs -> good_clf n s /\ sc_classes s = Some cs) ->
  (forall i, (i < n)%nat -> exists s x, In s clfs /\ In x (nth i (sc_rows s) []) /\ 0 < x) ->
  exists Y, tri_predict n clfs = Ok Y /\ length Y = n /\
    forall i, (i < n)%nat -> exists sums g, predicts sums g /\ length sums = length cs /\ nth i Y 0%Z = nth g cs 0%Z /\
      forall g', (g' < length cs)%nat -> exists qs, nth g' sums 0 = total qs /\
        Forall2 (fun s q => score_for cs (nth i (sc_rows s) []) (nth g' cs 0%Z) q) clfs qs.
Proof.
  intros NE G Pos. destruct (tri_proba_spec n clfs NE (fun s Hs => proj1 (G s Hs)) Pos) as (P & cs' & E & LP & S' & Inn & H).
  assert (C : forall s, In s clfs -> classes_of s = cs) by (intros s Hs; unfold classes_of; now rewrite (proj2 (G s Hs))).
  assert (cs' = cs).
  { destruct clfs as [|s0 rest] eqn:Ec; [congruence|]. rewrite <- Ec in *. assert (I0 : In s0 clfs) by (rewrite Ec; now left).
    apply ascending_ext; [exact S'| |].
    - destruct (proj1 (G s0 I0)) as (c & Ec' & Sc & _). destruct (G s0 I0) as [_ E0]. congruence.
    - intros c. rewrite Inn. split; [intros (s & Hs & Hc); now rewrite (C s Hs) in Hc|]. intros Hc. exists s0. rewrite (C s0 I0). auto. }
  subst cs'. unfold tri_predict. rewrite E. cbn [bind].
  destruct (predict_from_proba n cs P LP) as (Y & EY & LY & HY).
  { intros i Hi. destruct (H i Hi) as (sums & A & B & D & _). exists sums. auto. }
  exists Y. split; [destruct clfs as [|s0 rest]; [congruence|]; rewrite (proj2 (G s0 (or_introl eq_refl))); exact EY|].
  split; [exact LY|]. intros i Hi. destruct (HY i Hi) as (g & Lg & Eg & Hg). destruct (H i Hi) as (sums & A & B & D & Q).
  exists sums, g. split; [apply Hg; assumption|]. split; [exact A|]. split; [exact Eg|].
  intros g' Hg'. destruct (Q g' Hg') as (qs & Eq & F). exists qs. split; [exact Eq|].
  clear -F C. induction F as [|x y l l' Hx F IHF]; constructor.
  - rewrite (C x (or_introl eq_refl)) in Hx. exact Hx.
  - apply IHF. intros s Hs. apply C. now right.
Qed.

Lemma same_list_true a b : same_list a b = true <-> a = b.
Proof. unfold same_list. destruct (list_eq_dec Z.eq_dec a b); split; congruence. Qed.

Lemma co_proba_spec n s1 s2 cs : good_clf n s1 -> good_clf n s2 -> sc_classes s1 = Some cs -> sc_classes s2 = Some cs ->
  (forall i, (i < n)%nat -> exists s x, In s [s1; s2] /\ In x (nth i (sc_rows s) []) /\ 0 < x) ->
  exists P, co_proba n s1 s2 = Ok P /\ length P = n /\
    forall i, (i < n)%nat -> exists sums, length sums = length cs /\ 0 < total sums /\ distribution_of sums (nth i P []) /\
      forall g, (g < length cs)%nat -> nth g sums 0 == nth g (nth i (sc_rows s1) []) 0 + nth g (nth i (sc_rows s2) []) 0.
Proof.
  intros G1 G2 E1 E2 Pos. destruct (good_clf_facts n s1 G1) as (_ & S1 & L1 & R1 & H1). destruct (good_clf_facts n s2 G2) as (_ & S2 & L2 & R2 & H2).
  assert (C1 : classes_of s1 = cs) by (unfold classes_of; now rewrite E1). assert (C2 : classes_of s2 = cs) by (unfold classes_of; now rewrite E2).
  rewrite C1 in *. rewrite C2 in *.
  unfold co_proba. rewrite E1, E2, <- L1, <- L2, Nat.eqb_refl. cbn [negb].
  rewrite (proj2 (same_list_true cs cs) eq_refl). cbn [negb].
  eexists. split; [reflexivity|]. split; [now rewrite map_length, seq_length|]. intros i Hi.
  rewrite nth_indep with (d' := normalise_row (mean_rows [nth 0 (sc_rows s1) []; nth 0 (sc_rows s2) []])) by (rewrite map_length, seq_length; exact Hi).
  rewrite (map_nth (fun i => normalise_row (mean_rows [nth i (sc_rows s1) []; nth i (sc_rows s2) []]))), seq_nth by exact Hi. cbn [plus].
  destruct (combine_scores cs 2 [s1; s2] (fun s => nth i (sc_rows s) [])) as (sums & A & B & T & C).
  - discriminate.
  - intros s [<-|[<-|[]]]; [apply H1|apply H2]; exact Hi.
  - intros s [<-|[<-|[]]]; [apply H1|apply H2]; exact Hi.
  - apply Pos, Hi.
  - reflexivity.
  - exists sums. split; [exact A|]. split; [exact T|]. split; [exact C|]. intros g Hg. rewrite (B g Hg). unfold total. cbn. ring.
Qed.

Lemma co_predict_spec n s1 s2 cs : good_clf n s1 -> good_clf n s2 -> sc_classes s1 = Some cs -> sc_classes s2 = Some cs ->
  (forall i, (i < n)%nat -> exists s x, In s [s1; s2] /\ In x (nth i (sc_rows s) []) /\ 0 < x) ->
  exists Y, co_predict n s1 s2 = Ok Y /\ length Y = n /\
    forall i, (i < n)%nat -> exists sums g, predicts sums g /\ length sums = length cs /\ nth i Y 0%Z = nth g cs 0%Z /\
      forall g', (g' < length cs)%nat -> nth g' sums 0 == nth g' (nth i (sc_rows s1) []) 0 + nth g' (nth i (sc_rows s2) []) 0.
Proof.
  intros G1 G2 E1 E2 Pos. destruct (co_proba_spec n s1 s2 cs G1 G2 E1 E2 Pos) as (P & E & LP & H).
  unfold co_predict. rewrite E, E1. cbn [bind].
  destruct (predict_from_proba n cs P LP) as (Y & EY & LY & HY).
  { intros i Hi. destruct (H i Hi) as (sums & A & B & D & _). exists sums. auto. }
  exists Y. split; [exact EY|]. split; [exact LY|]. intros i Hi. destruct (HY i Hi) as (g & Lg & Eg & Hg).
  destruct (H i Hi) as (sums & A & B & D & Q). exists sums, g. split; [apply Hg; assumption|]. auto.
Qed.
