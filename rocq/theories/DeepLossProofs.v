From Coq Require Import QArith Qminmax Lia Lqa ZifyBool ZifyNat String.
From Verif Require Import Prelude ListFacts QFacts DeepLossModel DeepLossSpec.
Local Open Scope Q_scope.
Local Open Scope list_scope.
Local Notation length := List.length.

Lemma zipw_maps {I A B C} (f : A -> B -> C) (g : I -> A) (h : I -> B) l : zipw f (map g l) (map h l) = map (fun i => f (g i) (h i)) l.
Proof. induction l as [|x r IH]; [reflexivity|]. unfold zipw in *. cbn. now rewrite IH. Qed.
Lemma nth_seq {A} (d : A) l : map (fun i => nth i l d) (seq 0 (length l)) = l.
Proof. induction l as [|x r IH]; [reflexivity|]. cbn [length seq map nth]. rewrite <- seq_shift, map_map. cbn [nth]. now rewrite IH. Qed.
Lemma zipw_seq {A B C} (f : A -> B -> C) a b da db : length a = length b ->
  zipw f a b = map (fun i => f (nth i a da) (nth i b db)) (seq 0 (length a)).
Proof. intros L. rewrite <- (nth_seq da a) at 1. rewrite <- (nth_seq db b) at 1. rewrite <- L. apply zipw_maps. Qed.
Lemma zipw_length {A B C} (f : A -> B -> C) a b : length a = length b -> length (zipw f a b) = length a.
Proof. intros L. unfold zipw. rewrite map_length, combine_length. lia. Qed.
Lemma nth_map {A B} (f : A -> B) l i d d' : (i < length l)%nat -> nth i (map f l) d' = f (nth i l d).
Proof. intros H. rewrite (nth_indep _ d' (f d)) by (rewrite map_length; exact H). apply map_nth. Qed.

Lemma sum_masked (f : nat -> Q) (sel : nat -> bool) l :
  Qsum (map (fun i => f i * (if sel i then 1 else 0)) l) == Qsum (map f (filter sel l)).
Proof. induction l as [|x r IH]; [reflexivity|]. cbn [map filter]. destruct (sel x); cbn [map]; rewrite !Qsum_cons, IH; ring. Qed.
Lemma sum_mask (sel : nat -> bool) l : Qsum (map (fun i => if sel i then 1 else 0) l) == inject_Z (lenZ (filter sel l)).
Proof.
  induction l as [|x r IH]; [reflexivity|]. cbn [map filter]. destruct (sel x); rewrite Qsum_cons, IH; [|ring].
  unfold lenZ. cbn [length]. rewrite Nat2Z.inj_succ, <- Z.add_1_r, inject_Z_plus. ring.
Qed.
Lemma lenZ_map {A B} (f : A -> B) l : lenZ (map f l) = lenZ l.
Proof. unfold lenZ. now rewrite map_length. Qed.

Lemma average_mean vals : vals <> [] -> average vals (Qmean vals).
Proof.
  intros N. split; [|easy]. unfold Qmean. field. intros E. pose proof (lenZ_pos vals N). rewrite E in H. discriminate H.
Qed.

Lemma masked_mean_spec (f : nat -> Q) sel n :
  average (map f (chosen n sel)) (masked_mean (map f (seq 0 n)) (map (fun i => if sel i then 1 else 0) (seq 0 n))).
Proof.
  unfold masked_mean, chosen. destruct (map (fun i => if sel i then 1 else 0) (seq 0 n)) as [|m0 mr] eqn:EM.
  - destruct n; [|discriminate EM]. split; [reflexivity|reflexivity].
  - rewrite <- EM, zipw_maps. clear m0 mr EM. split.
    + rewrite lenZ_map. pose proof (sum_masked f sel (seq 0 n)) as S1. pose proof (sum_mask sel (seq 0 n)) as S2.
      rewrite S1. destruct (filter sel (seq 0 n)) as [|x r] eqn:E.
      * cbn [map]. rewrite Qsum_nil. change (inject_Z (lenZ (@nil nat))) with 0. ring.
      * assert (1 <= inject_Z (lenZ (x :: r))) as L1.
        { change 1 with (inject_Z 1). rewrite <- Zle_Qle. unfold lenZ. cbn [length]. lia. }
        rewrite Q.max_l by (rewrite S2; exact L1). rewrite S2. field. lra.
    + intros E. apply map_eq_nil in E. rewrite sum_masked, E. cbn [map]. rewrite Qsum_nil. unfold Qdiv. ring.
Qed.

Lemma Qmean_zero l : Qmean l * 0 == 0. Proof. ring. Qed.
Lemma kept_mean_spec (f : nat -> Q) sel n :
  average (map f (chosen n sel)) (kept_mean (map f (seq 0 n)) (map (fun i => if sel i then 1 else 0) (seq 0 n))).
Proof.
  unfold kept_mean, chosen. pose proof (sum_mask sel (seq 0 n)) as S2. rewrite zipw_maps.
  destruct (Qeq_bool (Qsum (map (fun i => if sel i then 1 else 0) (seq 0 n))) 0) eqn:E.
  - apply Qeq_bool_eq in E. rewrite S2 in E.
    assert (filter sel (seq 0 n) = []) as ->.
    { destruct (filter sel (seq 0 n)) as [|x r]; [reflexivity|]. exfalso. pose proof (lenZ_pos (x :: r) ltac:(easy)). rewrite E in H. discriminate H. }
    split; [cbn [map]; rewrite Qsum_nil; change (inject_Z (lenZ (@nil Q))) with 0; ring|intros _; ring].
  - apply Qeq_bool_neq in E. rewrite S2 in E. split.
    + rewrite lenZ_map, S2. rewrite sum_masked. field. exact E.
    + intros E0. apply map_eq_nil in E0. rewrite E0 in E. exfalso. apply E. reflexivity.
Qed.

Lemma fold_max_spec r : forall x t, Qle_bool t (fold_left Qmax r x) = existsb (fun y => Qle_bool t y) (x :: r).
Proof.
  induction r as [|y r IH]; intros x t; cbn [fold_left existsb]; [now rewrite orb_false_r|].
  rewrite IH. cbn [existsb]. rewrite orb_assoc. f_equal.
  apply Bool.eq_iff_eq_true. rewrite orb_true_iff, !Qle_bool_iff. split.
  - intros H. destruct (Q.max_spec x y) as [[_ E]|[_ E]]; rewrite E in H; auto.
  - intros [H|H]; [apply Qle_trans with x|apply Qle_trans with y]; auto; [apply Q.le_max_l|apply Q.le_max_r].
Qed.
Lemma row_max_confident t p : p <> [] -> Qle_bool t (row_max p) = confident t p.
Proof. destruct p as [|x r]; [easy|]. intros _. apply fold_max_spec. Qed.

Lemma mask_spec cutoff (f : nat -> row) n : (forall i, (i < n)%nat -> f i <> []) ->
  mask_of cutoff (map f (seq 0 n)) = map (fun i => if confident cutoff (f i) then 1 else 0) (seq 0 n).
Proof.
  intros H. unfold mask_of. rewrite map_map. apply map_ext_in. intros i I. apply in_seq in I.
  rewrite row_max_confident by (apply H; lia). reflexivity.
Qed.

(* ---- sharpening *)
Section Sharp.
Variable pow : Q -> Q.
Hypothesis P : pow_ok pow.
Lemma pow_nonneg x : 0 <= x -> 0 <= pow x.
Proof using P.
  intros H. destruct P as [M Z]. destruct (Qle_lt_or_eq 0 x H) as [L|E].
  - destruct (M 0 x (Qle_refl 0) H) as [M1 _]. apply Qlt_le_weak. rewrite <- Z at 1. now apply M1.
  - destruct (M 0 x (Qle_refl 0) H) as [_ M2]. rewrite <- (M2 E), Z. apply Qle_refl.
Qed.
Lemma pow_le x y : 0 <= x -> 0 <= y -> (pow x <= pow y <-> x <= y).
Proof using P.
  intros Hx Hy. destruct P as [M _]. split; intros H.
  - destruct (Qlt_le_dec y x) as [L|L]; [|exact L]. destruct (M y x Hy Hx) as [M1 _]. specialize (M1 L). lra.
  - destruct (Qle_lt_or_eq x y H) as [L|E]; [apply Qlt_le_weak, (M x y Hx Hy), L|]. rewrite (proj2 (M x y Hx Hy) E). apply Qle_refl.
Qed.
Lemma tiny_pos : 0 < tiny. Proof. reflexivity. Qed.

Lemma sharpen_spec p : sharpened pow p (sharpen pow false p).
Proof.
  unfold sharpen, sharpened. split; [now rewrite !map_length|].
  exists (Qmax (Qsum (map pow p)) tiny). split; [eapply Qlt_le_trans; [apply tiny_pos|apply Q.le_max_r]|].
  split; [intros H; apply Q.max_l; exact H|]. intros c C.
  rewrite (nth_map (fun x => x / Qmax (Qsum (map pow p)) tiny) (map pow p) c 0) by (rewrite map_length; exact C).
  rewrite (nth_map pow p c 0) by exact C. field.
  intros E. pose proof (Q.le_max_r (Qsum (map pow p)) tiny). rewrite E in H. pose proof tiny_pos. lra.
Qed.

Lemma sharpened_order p t : (forall x, In x p -> 0 <= x) -> sharpened pow p t ->
  forall i j, (i < length p)%nat -> (j < length p)%nat -> (nth i t 0 <= nth j t 0 <-> nth i p 0 <= nth j p 0).
Proof using P.
  intros NN (L & d & D & _ & S) i j I J. rewrite <- (pow_le (nth i p 0) (nth j p 0)) by (apply NN, nth_In; assumption).
  rewrite <- (S i I), <- (S j J). split; intros H; [|].
  - apply Qmult_le_compat_r; [exact H|lra].
  - apply Qmult_le_r in H; assumption.
Qed.
Lemma sharpened_distribution p t : (forall x, In x p -> 0 <= x) -> sharpened pow p t -> (1 # 1000000000000) <= Qsum (map pow p) -> distribution t.
Proof using P.
  intros NN (L & d & D & E & S) T. specialize (E T). split.
  - intros x I. destruct (In_nth _ _ 0 I) as (c & C & <-). rewrite L in C. specialize (S c C).
    assert (0 <= nth c t 0 * d) by (rewrite S; apply pow_nonneg, NN, nth_In; exact C). nra.
  - assert (H : Qsum t * d == Qsum (map pow p)).
    { rewrite <- (nth_seq 0 t). rewrite <- Qsum_scale_r. rewrite L. rewrite <- (nth_seq 0 p) at 2. rewrite map_map.
      apply Qsum_ext. intros c C. apply in_seq in C. apply S. lia. }
    rewrite <- E in H. nra.
Qed.
Lemma most_likely_sharpened one p c : (forall x, In x p -> 0 <= x) -> most_likely (sharpen pow one p) c -> most_likely p c.
Proof using P.
  intros NN. destruct one; [easy|]. pose proof (sharpen_spec p) as S. intros [[C1 C2] M].
  assert (L : length (sharpen pow false p) = length p) by apply S.
  unfold lenZ in C2. rewrite L in C2. split; [unfold lenZ; lia|]. intros j J.
  apply (sharpened_order p _ NN S); [exact J|lia|]. apply M. rewrite L. exact J.
Qed.
End Sharp.

Lemma sharpen_length pow one p : length (sharpen pow one p) = length p.
Proof. unfold sharpen. destruct one; [reflexivity|]. now rewrite !map_length. Qed.

Lemma table_nth n w l i : table n w l -> (i < n)%nat -> length (nth i l []) = w.
Proof. intros [L H] I. apply H, nth_In. lia. Qed.
Lemma table_width n w l : table n w l -> (0 < n)%nat -> width l = w.
Proof. intros [L H] N. destruct l as [|r l]; [cbn in L; lia|]. cbn. apply H. now left. Qed.

(* ---- the checks *)
Lemma check_step_spec n w n' w' m w'' logits_l y logits_w logits_s :
  table m w'' logits_l -> table n w logits_w -> table n' w' logits_s -> (0 < m)%nat -> (0 < n)%nat -> (0 < n')%nat ->
  (check_step logits_l y logits_w logits_s = Ok tt /\ n = n' /\ w = w' /\ w = w'' /\ (forall c, In c y -> (0 <= c < Z.of_nat w'')%Z)) \/
  (check_step logits_l y logits_w logits_s = Err InductiveValidationError /\
   ~ (n = n' /\ w = w' /\ w = w'' /\ (forall c, In c y -> (0 <= c < Z.of_nat w'')%Z))).
Proof.
  intros TL TW TS M N N'. unfold check_step, same_shape.
  rewrite (table_width _ _ _ TL M), (table_width _ _ _ TW N), (table_width _ _ _ TS N').
  replace (@List.length (list Q) logits_w) with n by (symmetry; apply TW). replace (@List.length row logits_s) with n' by (symmetry; apply TS).
  destruct (Nat.eqb_spec n n') as [E1|E1]; cbn [andb negb]; [|right; split; [reflexivity|tauto]].
  destruct (Nat.eqb_spec w w') as [E2|E2]; cbn [negb]; [|right; split; [reflexivity|tauto]].
  destruct (Nat.eqb_spec w w'') as [E3|E3]; cbn [negb]; [|right; split; [reflexivity|tauto]].
  destruct (existsb _ y) eqn:E4.
  - right. split; [reflexivity|]. intros (_ & _ & _ & H). apply existsb_exists in E4. destruct E4 as (c & I & B). specialize (H c I). lia.
  - left. split; [reflexivity|]. split; [exact E1|]. split; [exact E2|]. split; [exact E3|]. intros c I.
    destruct ((c <? 0)%Z || (Z.of_nat w'' <=? c)%Z) eqn:B; [|lia].
    exfalso. assert (existsb (fun c => (c <? 0)%Z || (Z.of_nat w'' <=? c)%Z) y = true); [|congruence].
    apply existsb_exists. exists c. split; assumption.
Qed.

Lemma as_seq {A} (d : A) l n : length l = n -> l = map (fun i => nth i l d) (seq 0 n).
Proof. intros <-. now rewrite nth_seq. Qed.

Lemma ne_of_length {A} (l : list A) : (0 < length l)%nat -> l <> []. Proof. destruct l; [cbn; lia|easy]. Qed.
Section Objectives.
Variables (softmax log_softmax : row -> row) (ce : row -> Z -> Q) (argmax : row -> Z) (pow log exp : Q -> Q).
Hypotheses (SM : softmax_ok softmax) (LS : forall z, length (log_softmax z) = length z) (AM : argmax_ok argmax) (PW : pow_ok pow).
Variables (n w : nat) (cutoff : Q).
Hypothesis (W : (0 < w)%nat).


Lemma unsup_hard one logits_w logits_s : table n w logits_w -> table n w logits_s ->
  exists pseudo : nat -> Z, (forall i, (i < n)%nat -> most_likely (softmax (nth i logits_w [])) (pseudo i)) /\
    average (map (fun i => ce (nth i logits_s []) (pseudo i)) (chosen n (fun i => confident cutoff (softmax (nth i logits_w [])))))
      (masked_mean (pseudo_losses log_softmax ce argmax pow true one (map softmax logits_w) logits_s) (mask_of cutoff (map softmax logits_w))).
Proof using All.
  intros TW TS. exists (fun i => argmax (sharpen pow one (softmax (nth i logits_w [])))).
  assert (NE : forall i, (i < n)%nat -> softmax (nth i logits_w []) <> []).
  { intros i I. apply ne_of_length. rewrite (proj1 (SM _)), (table_nth _ _ _ _ TW I). exact W. }
  split.
  - intros i I. apply (most_likely_sharpened pow PW one); [apply SM|]. apply AM.
    apply ne_of_length. rewrite sharpen_length, (proj1 (SM _)), (table_nth _ _ _ _ TW I). exact W.
  - assert (EW : map softmax logits_w = map (fun i => softmax (nth i logits_w [])) (seq 0 n)).
    { rewrite (as_seq [] logits_w n (proj1 TW)) at 1. now rewrite map_map. }
    rewrite EW. rewrite (mask_spec cutoff (fun i => softmax (nth i logits_w []))) by exact NE.
    unfold pseudo_losses. rewrite (as_seq [] logits_s n (proj1 TS)) at 1. rewrite !map_map, zipw_maps.
    apply (masked_mean_spec (fun i => ce (nth i logits_s []) (argmax (sharpen pow one (softmax (nth i logits_w [])))))).
Qed.

Lemma unsup_soft (one : bool) logits_w logits_s : table n w logits_w -> table n w logits_s ->
  exists target : nat -> list Q, (forall i, (i < n)%nat -> if one then target i = softmax (nth i logits_w []) else sharpened pow (softmax (nth i logits_w [])) (target i)) /\
    average (map (fun i => soft_cross_entropy w (target i) (log_softmax (nth i logits_s []))) (chosen n (fun i => confident cutoff (softmax (nth i logits_w [])))))
      (masked_mean (pseudo_losses log_softmax ce argmax pow false one (map softmax logits_w) logits_s) (mask_of cutoff (map softmax logits_w))).
Proof using All.
  intros TW TS. exists (fun i => sharpen pow one (softmax (nth i logits_w []))).
  assert (NE : forall i, (i < n)%nat -> softmax (nth i logits_w []) <> []).
  { intros i I. apply ne_of_length. rewrite (proj1 (SM _)), (table_nth _ _ _ _ TW I). exact W. }
  split.
  - intros i I. destruct one; [reflexivity|]. apply sharpen_spec.
  - assert (EW : map softmax logits_w = map (fun i => softmax (nth i logits_w [])) (seq 0 n)).
    { rewrite (as_seq [] logits_w n (proj1 TW)) at 1. now rewrite map_map. }
    rewrite EW. rewrite (mask_spec cutoff (fun i => softmax (nth i logits_w []))) by exact NE.
    unfold pseudo_losses. rewrite (as_seq [] logits_s n (proj1 TS)) at 1. rewrite !map_map, zipw_maps.
    assert (EL : map (fun i => - Qsum (zipw Qmult (sharpen pow one (softmax (nth i logits_w []))) (log_softmax (nth i logits_s [])))) (seq 0 n) =
                 map (fun i => soft_cross_entropy w (sharpen pow one (softmax (nth i logits_w []))) (log_softmax (nth i logits_s []))) (seq 0 n)).
    { apply map_ext_in. intros i I. apply in_seq in I. unfold soft_cross_entropy.
      rewrite (zipw_seq Qmult _ _ 0 0) by (rewrite sharpen_length, (proj1 (SM _)), LS, (table_nth _ _ _ i TW), (table_nth _ _ _ i TS) by lia; reflexivity).
      rewrite sharpen_length, (proj1 (SM _)), (table_nth _ _ _ i TW) by lia. reflexivity. }
    rewrite EL. apply (masked_mean_spec (fun i => soft_cross_entropy w (sharpen pow one (softmax (nth i logits_w []))) (log_softmax (nth i logits_s [])))).
Qed.

End Objectives.

Section Kl.
Variables (log_softmax : row -> row) (log : Q -> Q).
Hypothesis LS : forall z, length (log_softmax z) = length z.
Variables (n w : nat) (cutoff : Q).
Hypothesis (W : (0 < w)%nat).
Lemma kl_spec p z : length p = w -> length z = w -> kl log_softmax log p z = divergence w log p (log_softmax z).
Proof using All.
  intros LP LZ. unfold kl, divergence. rewrite (zipw_seq _ _ _ 0 0) by (rewrite LS; lia). rewrite LP. reflexivity.
Qed.

Lemma unsup_kl sharp logits_w logits_s : softmax_ok sharp -> table n w logits_w -> table n w logits_s ->
  average (map (fun i => divergence w log (sharp (nth i logits_w [])) (log_softmax (nth i logits_s []))) (chosen n (fun i => confident cutoff (sharp (nth i logits_w [])))))
      (kept_mean (zipw (kl log_softmax log) (map sharp logits_w) logits_s) (mask_of cutoff (map sharp logits_w))).
Proof using All.
  intros SH TW TS.
  assert (NE : forall i, (i < n)%nat -> sharp (nth i logits_w []) <> []).
  { intros i I. apply ne_of_length. rewrite (proj1 (SH _)), (table_nth _ _ _ _ TW I). exact W. }
  assert (EW : map sharp logits_w = map (fun i => sharp (nth i logits_w [])) (seq 0 n)).
  { rewrite (as_seq [] logits_w n (proj1 TW)) at 1. now rewrite map_map. }
  rewrite EW. rewrite (mask_spec cutoff (fun i => sharp (nth i logits_w []))) by exact NE.
  rewrite (as_seq [] logits_s n (proj1 TS)) at 1. rewrite zipw_maps.
  rewrite (map_ext_in (fun i => kl log_softmax log (sharp (nth i logits_w [])) (nth i logits_s []))
             (fun i => divergence w log (sharp (nth i logits_w [])) (log_softmax (nth i logits_s [])))).
  - apply (kept_mean_spec (fun i => divergence w log (sharp (nth i logits_w [])) (log_softmax (nth i logits_s [])))).
  - intros i I. apply in_seq in I. apply kl_spec; [rewrite (proj1 (SH _))|]; apply (table_nth n); try assumption; lia.
Qed.

End Kl.

Section NoisyHard.
Variables (ce : row -> Z -> Q) (argmax : row -> Z).
Hypothesis AM : argmax_ok argmax.
Variables (n w : nat) (cutoff : Q).
Hypothesis (W : (0 < w)%nat).
Lemma unsup_noisy_hard sharp logits_w logits_s : softmax_ok sharp -> table n w logits_w -> table n w logits_s ->
  exists pseudo : nat -> Z, (forall i, (i < n)%nat -> most_likely (sharp (nth i logits_w [])) (pseudo i)) /\
    average (map (fun i => ce (nth i logits_s []) (pseudo i)) (chosen n (fun i => confident cutoff (sharp (nth i logits_w [])))))
      (kept_mean (zipw ce logits_s (map argmax (map sharp logits_w))) (mask_of cutoff (map sharp logits_w))).
Proof using All.
  intros SH TW TS. exists (fun i => argmax (sharp (nth i logits_w []))).
  assert (NE : forall i, (i < n)%nat -> sharp (nth i logits_w []) <> []).
  { intros i I. apply ne_of_length. rewrite (proj1 (SH _)), (table_nth _ _ _ _ TW I). exact W. }
  split; [intros i I; apply AM, NE, I|].
  assert (EW : map sharp logits_w = map (fun i => sharp (nth i logits_w [])) (seq 0 n)).
  { rewrite (as_seq [] logits_w n (proj1 TW)) at 1. now rewrite map_map. }
  rewrite EW. rewrite (mask_spec cutoff (fun i => sharp (nth i logits_w []))) by exact NE.
  rewrite (as_seq [] logits_s n (proj1 TS)) at 1. rewrite map_map, zipw_maps.
  apply (kept_mean_spec (fun i => ce (nth i logits_s []) (argmax (sharp (nth i logits_w []))))).
Qed.

End NoisyHard.

Lemma ce_mean_spec (ce : row -> Z -> Q) m (logits_l : list row) (y : list Z) : length logits_l = m -> length y = m -> (0 < m)%nat ->
  average (map (fun i => ce (nth i logits_l []) (nth i y 0%Z)) (seq 0 m)) (ce_mean ce logits_l y).
Proof.
  intros L1 L2 M. unfold ce_mean. rewrite (zipw_seq ce logits_l y [] 0%Z) by exact (eq_trans L1 (eq_sym L2)).
  replace (@List.length (list Q) logits_l) with m by (symmetry; exact L1).
  apply average_mean. destruct m; [lia|easy].
Qed.

(* TSA *)
Lemma tsa_range exp schedule step total k thr : exp_ok exp -> (0 <= step <= total)%Z -> (1 <= k)%Z ->
  tsa_threshold exp schedule step total k = Ok thr -> 1 / inject_Z k <= thr <= 1.
Proof.
  intros (EP & EM & E0) ST K. unfold tsa_threshold.
  assert (K1 : 1 <= inject_Z k) by (change 1 with (inject_Z 1); now rewrite <- Zle_Qle).
  assert (IK : 0 < 1 / inject_Z k <= 1).
  { split; [apply Qlt_shift_div_l; lra|apply Qle_shift_div_r; lra]. }
  destruct (String.eqb schedule "none"); [intros H; injection H as <-; split; [apply IK|apply Qle_refl]|].
  destruct (Z.leb_spec total 0) as [T|T]; [intros H; injection H as <-; split; [apply IK|apply Qle_refl]|].
  set (pr := inject_Z step / inject_Z total).
  assert (T1 : 0 < inject_Z total) by (change 0 with (inject_Z 0); now rewrite <- Zlt_Qlt).
  assert (PR : 0 <= pr <= 1).
  { unfold pr. split.
    - apply Qle_shift_div_l; [exact T1|]. rewrite Qmult_0_l. change 0 with (inject_Z 0). rewrite <- Zle_Qle. lia.
    - apply Qle_shift_div_r; [exact T1|]. rewrite Qmult_1_l. rewrite <- Zle_Qle. lia. }
  assert (FIN : forall th, 0 <= th <= 1 -> 1 / inject_Z k <= th * (1 - 1 / inject_Z k) + 1 / inject_Z k <= 1).
  { intros th TH. nra. }
  destruct (String.eqb schedule "linear"); cbn [bind]; [intros H; injection H as <-; now apply FIN|].
  destruct (String.eqb schedule "exp"); cbn [bind].
  { intros H; injection H as <-; apply FIN. split; [apply Qlt_le_weak, EP|].
    pose proof (EM ((pr - 1) * 5) 0 ltac:(lra)). lra. }
  destruct (String.eqb schedule "log"); cbn [bind]; [|easy].
  intros H; injection H as <-; apply FIN. pose proof (EP (- pr * 5)). pose proof (EM (- pr * 5) 0 ltac:(lra)). lra.
Qed.
Lemma tsa_monotone exp schedule s1 s2 total k t1 t2 : exp_ok exp -> (0 <= s1 <= s2)%Z -> (1 <= k)%Z ->
  tsa_threshold exp schedule s1 total k = Ok t1 -> tsa_threshold exp schedule s2 total k = Ok t2 -> t1 <= t2.
Proof.
  intros (EP & EM & E0) ST K. unfold tsa_threshold.
  assert (K1 : 1 <= inject_Z k) by (change 1 with (inject_Z 1); now rewrite <- Zle_Qle).
  assert (IK : 0 < 1 / inject_Z k <= 1).
  { split; [apply Qlt_shift_div_l; lra|apply Qle_shift_div_r; lra]. }
  destruct (String.eqb schedule "none"); [intros H1 H2; injection H1 as <-; injection H2 as <-; apply Qle_refl|].
  destruct (Z.leb_spec total 0) as [T|T]; [intros H1 H2; injection H1 as <-; injection H2 as <-; apply Qle_refl|].
  set (p1 := inject_Z s1 / inject_Z total). set (p2 := inject_Z s2 / inject_Z total).
  assert (T1 : 0 < inject_Z total) by (change 0 with (inject_Z 0); now rewrite <- Zlt_Qlt).
  assert (PR : p1 <= p2).
  { unfold p1, p2, Qdiv. apply Qmult_le_compat_r; [rewrite <- Zle_Qle; lia|]. apply Qinv_le_0_compat. lra. }
  assert (FIN : forall a b, a <= b -> a * (1 - 1 / inject_Z k) + 1 / inject_Z k <= b * (1 - 1 / inject_Z k) + 1 / inject_Z k).
  { intros a b AB. nra. }
  destruct (String.eqb schedule "linear"); cbn [bind]; [intros H1 H2; injection H1 as <-; injection H2 as <-; now apply FIN|].
  destruct (String.eqb schedule "exp"); cbn [bind].
  { intros H1 H2; injection H1 as <-; injection H2 as <-; apply FIN, EM. lra. }
  destruct (String.eqb schedule "log"); cbn [bind]; [|easy].
  intros H1 H2; injection H1 as <-; injection H2 as <-; apply FIN. pose proof (EM (- p2 * 5) (- p1 * 5) ltac:(lra)). lra.
Qed.

(* labelled part of UDA: rows whose true class is already probable enough are left out of the sum *)
Lemma uda_sup (softmax : row -> row) (ce : row -> Z -> Q) m (logits_l : list row) (y : list Z) tsa : length logits_l = m -> length y = m -> (0 < m)%nat ->
  Qmean (zipw Qmult (zipw ce logits_l y) (map (fun p => if negb (Qle_bool tsa p) then 1 else 0) (zipw (fun z c => nth (Z.to_nat c) (softmax z) 0) logits_l y)))
    * inject_Z (Z.of_nat m) ==
  Qsum (map (fun i => ce (nth i logits_l []) (nth i y 0%Z))
            (chosen m (fun i => negb (Qle_bool tsa (nth (Z.to_nat (nth i y 0%Z)) (softmax (nth i logits_l [])) 0))))).
Proof.
  intros L1 L2 M. rewrite (zipw_seq ce logits_l y [] 0%Z), (zipw_seq (fun z c => nth (Z.to_nat c) (softmax z) 0) logits_l y [] 0%Z) by exact (eq_trans L1 (eq_sym L2)).
  replace (@List.length (list Q) logits_l) with m by (symmetry; exact L1). rewrite map_map, zipw_maps. unfold Qmean, chosen. rewrite lenZ_map. unfold lenZ. rewrite seq_length.
  rewrite (sum_masked (fun i => ce (nth i logits_l []) (nth i y 0%Z)) (fun i => negb (Qle_bool tsa (nth (Z.to_nat (nth i y 0%Z)) (softmax (nth i logits_l [])) 0)))).
  field. intros E. assert (0 < inject_Z (Z.of_nat m)) by (change 0 with (inject_Z 0); rewrite <- Zlt_Qlt; lia). rewrite E in H. discriminate H.
Qed.

Lemma three_logits_spec {X} (call : list X -> list row) f use_cat x_l x_w x_s :
  (forall xs, call xs = map f xs) -> three_logits call use_cat x_l x_w x_s = Ok (map f x_l, map f x_w, map f x_s).
Proof.
  intros C. unfold three_logits. destruct use_cat; [|now rewrite !C].
  rewrite C, map_length, !app_length, Nat.add_assoc, Nat.eqb_refl. cbn [negb]. rewrite !map_app.
  rewrite firstn_app, map_length, Nat.sub_diag, firstn_all2 by (rewrite map_length; lia). cbn [firstn]. rewrite app_nil_r.
  rewrite !skipn_app, !map_length. rewrite (skipn_all2 (n := length x_l)) by (rewrite map_length; lia).
  rewrite (skipn_all2 (n := length x_l + length x_w) (map f x_l)) by (rewrite map_length; lia).
  replace (length x_l - length x_l)%nat with O by lia. replace (length x_l + length x_w - length x_l)%nat with (length x_w) by lia.
  cbn [skipn app]. rewrite firstn_app, map_length, Nat.sub_diag, firstn_all2 by (rewrite map_length; lia). cbn [firstn]. rewrite app_nil_r.
  rewrite (skipn_all2 (n := length x_w) (map f x_w)) by (rewrite map_length; lia). replace (length x_w - length x_w)%nat with O by lia. reflexivity.
Qed.
