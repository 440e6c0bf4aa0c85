(* C84-C87: the adaptive thresholds of FlexMatch, FreeMatch, AdaMatch, SoftMatch and ADSH. *)
From Coq Require Import QArith Qminmax Lia Lqa ZifyBool ZifyNat Permutation Sorting.Sorted.
From Verif Require Import Prelude ListFacts QFacts DeepLossModel DeepLossSpec DeepLossProofs DeepLossProps DeepThreshModel DeepThreshSpec DeepThreshProofs.
Local Open Scope Z_scope.
Local Open Scope Q_scope.
Local Open Scope list_scope.

(* ------------------------------------------------------------------ C84 *)
(* C84: when the caller gives no pool size, the indices are accepted only if they number all rows of the pool. *)
Theorem C84_pool_partial : forall n_u idx ulb unl size, idx <> [] -> (ulb = None \/ ulb = Some 0%Z) -> unl = None ->
  flex_pool n_u idx ulb unl = Ok size -> size = n_u /\ Permutation idx (arange n_u).
Proof.
  intros n_u idx ulb unl size N U -> H. apply (pool_perm n_u idx ulb None size N); [|exact H]. destruct U as [->| ->]; reflexivity.
Qed.
Example C84_pool_ex : flex_pool 3 [2; 0; 1]%Z None None = Ok 3%Z. Proof. reflexivity. Qed.

(* C84: with a pool size, indices that are repeated or negative are accepted, so two rows share one entry. *)
Theorem C84_pool_refuted :
  flex_pool 2 [1; 1]%Z (Some 4%Z) None = Ok 4%Z /\ flex_pool 2 [-1; 3]%Z (Some 4%Z) None = Ok 4%Z /\
  ~ NoDup [1; 1]%Z /\
  (exists m s, flex_step ex_argmax true (9 # 10) 2 4 None [((-1)%Z, [1; 0]); (3%Z, [0; 1])] = Ok (m, s) /\ fx_sel s = [-1; -1; -1; 1]%Z).
Proof.
  repeat split; try reflexivity.
  - intros H. inversion H as [|x l NI _]. apply NI. now left.
  - eexists _, _. split; vm_compute; reflexivity.
Qed.

(* C84: a row takes part in a step exactly when some class has at least probability p_cutoff * a / (2 - a), where a counts
   the rows of the pool whose last confident prediction so far is the row's class, relative to the class with the most. *)
Theorem C84_threshold_follows_history : forall argmax warmup cutoff k n pre b,
  argmax_ok argmax -> (0 < k)%nat -> (0 <= n)%Z -> Forall (pool_batch n k) pre -> pool_batch n k b ->
  exists before bits st, flex_fit argmax warmup cutoff k n None (pre ++ [b]) = Ok (before ++ [bits], st) /\ length before = length pre /\
    Forall2 (fun row bit => let a := learning_share warmup n k (last_choice argmax (confident cutoff) (concat pre)) (argmax (snd row)) in
                            bit = confident (cutoff * (a / (2 - a))) (snd row)) b bits.
Proof.
  intros argmax warmup cutoff k n pre b AM K N F B. destruct (flex_history argmax AM warmup cutoff k n K N pre b F B) as (ms & m & s & E & L & _ & F2).
  exists ms, m, (Some s). split; [exact E|]. split; [exact L|]. exact F2.
Qed.

(* C84: the threshold lies between 0 and p_cutoff, grows with the share, and is p_cutoff for the class that leads;
   a row that reaches p_cutoff always takes part. *)
Theorem C84_threshold_range : forall argmax warmup cutoff k n choice p,
  argmax_ok argmax -> (0 < k)%nat -> 0 <= cutoff -> length p = k ->
  let a := learning_share warmup n k choice (argmax p) in
  0 <= a <= 1 /\ 0 <= cutoff * (a / (2 - a)) <= cutoff /\
  (a == 1 -> cutoff * (a / (2 - a)) == cutoff) /\
  (forall a', 0 <= a' <= a -> cutoff * (a' / (2 - a')) <= cutoff * (a / (2 - a))) /\
  (confident cutoff p = true -> confident (cutoff * (a / (2 - a))) p = true).
Proof.
  intros argmax warmup cutoff k n choice p AM K C LP a.
  assert (A : 0 <= a <= 1).
  { destruct (AM p) as [R _]; [destruct p; [cbn in LP; lia|easy]|]. unfold lenZ in R. unfold a. rewrite <- (Z2Nat.id (argmax p)) by lia. apply share_range; try assumption; try lia. }
  pose proof (threshold_range cutoff a C A) as T. split; [exact A|]. split; [exact T|]. split; [|split].
  - intros E. rewrite E. field.
  - intros a' B. apply threshold_monotone; lra.
  - apply confident_weaker. lra.
Qed.

Lemma ex_pool_batch : pool_batch 3 2 [(0%Z, [1; 0]); (2%Z, [1 # 2; 1 # 2])].
Proof.
  split; [cbn; repeat constructor; cbn; lia|]. intros i p [E|[E|[]]]; injection E as <- <-; split; (lia || reflexivity).
Qed.
(* after one confident row of class 0 its share is 1/2 of the two rows without a choice, so a row with 0.6 is used *)
Example C84_ex : argmax_ok ex_argmax /\ pool_batch 3 2 [(0%Z, [1; 0]); (2%Z, [1 # 2; 1 # 2])] /\
  (exists s, flex_fit ex_argmax true (9 # 10) 2 3 None [[(0%Z, [1; 0]); (2%Z, [1 # 2; 1 # 2])]; [(1%Z, [3 # 5; 2 # 5]); (0%Z, [1 # 5; 4 # 5])]] =
             Ok ([[true; true]; [true; true]], Some s) /\ fx_sel s = [0; -1; -1]%Z) /\
  learning_share true 3 2 (last_choice ex_argmax (confident (9 # 10)) [(0%Z, [1; 0]); (2%Z, [1 # 2; 1 # 2])]) 0 == 1 # 2.
Proof.
  split; [exact ex_argmax_ok|]. split; [exact ex_pool_batch|]. split; [|vm_compute; reflexivity]. eexists. split; vm_compute; reflexivity.
Qed.

(* C84: a second fit of the same object starts from the first one's statistics: with other data it uses other rows than
   a new object would, and with a larger pool it stops with an index error. *)
Theorem C84_second_fit_refuted :
  exists st, flex_fit ex_argmax false (9 # 10) 2 1 None [[(0%Z, [1; 0])]] = Ok ([[true]], st) /\
    (exists s, flex_fit ex_argmax false (9 # 10) 2 1 None [[(0%Z, [3 # 5; 2 # 5])]] = Ok ([[true]], s)) /\
    (exists s, flex_fit ex_argmax false (9 # 10) 2 1 st [[(0%Z, [3 # 5; 2 # 5])]] = Ok ([[false]], s)) /\
    (exists s, flex_fit ex_argmax false (9 # 10) 2 2 None [[(1%Z, [1; 0])]] = Ok ([[true]], s)) /\
    flex_fit ex_argmax false (9 # 10) 2 2 st [[(1%Z, [1; 0])]] = Err IndexError.
Proof.
  eexists. split; [vm_compute; reflexivity|]. split; [eexists; vm_compute; reflexivity|]. split; [eexists; vm_compute; reflexivity|].
  split; [eexists; vm_compute; reflexivity|]. vm_compute. reflexivity.
Qed.

(* ------------------------------------------------------------------ C85 *)
(* C85: a row takes part in a step exactly when some class has at least the running confidence times the running
   probability of the row's class relative to the greatest, both averaged over all batches up to this one. *)
Theorem C85_threshold_follows_history : forall argmax q80 m use_quantile clip k pre b,
  argmax_ok argmax -> (0 < k)%nat -> Forall (prob_batch k) pre -> prob_batch k b ->
  exists before bits st, free_fit argmax q80 m use_quantile clip None (pre ++ [b]) = (before ++ [bits], Some st) /\ length before = length pre /\
    Forall2 (fun p bit => bit = confident (free_confidence (if use_quantile then Some q80 else None) clip k m (pre ++ [b]) *
                                           relative k (free_class k m (pre ++ [b])) (argmax p)) p) b bits /\
    (0 <= m <= 1 -> distribution (fr_model st) /\ distribution (fr_hist st)) /\
    (forall c, (c < k)%nat -> nth c (fr_hist st) 0 == free_share argmax k m (pre ++ [b]) c).
Proof.
  intros argmax q80 m use_quantile clip k pre b AM K F B.
  destruct (free_history argmax AM q80 m use_quantile clip k K pre b F B) as (ms & bits & s & E & L & I & F2).
  exists ms, bits, s. split; [exact E|]. split; [exact L|]. split; [exact F2|]. split; [|apply I].
  intros M. apply (free_state_distributions argmax AM q80 m use_quantile clip k K (pre ++ [b]) s M I). apply Forall_app. split; [exact F|now constructor].
Qed.

(* C85: the running confidence lies between 1/k and 1 (0.95 when clipped); the threshold of a class lies between 0 and the
   running confidence and reaches it for the class with the greatest running probability; a row that reaches the running
   confidence always takes part. *)
Theorem C85_threshold_range : forall argmax q80 m use_quantile clip k h p,
  argmax_ok argmax -> (use_quantile = true -> between_ok q80) -> (2 <= k)%nat -> 0 <= m <= 1 -> Forall (prob_batch k) h -> length p = k ->
  let confidence := free_confidence (if use_quantile then Some q80 else None) clip k m h in
  let threshold := confidence * relative k (free_class k m h) (argmax p) in
  1 / inject_Z (Z.of_nat k) <= confidence <= (if clip then 95 # 100 else 1) /\
  0 <= threshold <= confidence /\
  ((forall c, (c < k)%nat -> free_class k m h c <= free_class k m h (Z.to_nat (argmax p))) -> (Z.of_nat k <= 1000000000000)%Z -> threshold == confidence) /\
  (confident confidence p = true -> confident threshold p = true).
Proof.
  intros argmax q80 m use_quantile clip k h p AM Q8 K2 M F LP confidence threshold.
  assert (K : (0 < k)%nat) by lia.
  pose proof (free_confidence_range q80 m use_quantile clip k K h M Q8 F K2) as R. fold confidence in R.
  assert (P : 0 < inject_Z (Z.of_nat k)) by (change 0 with (inject_Z 0); rewrite <- Zlt_Qlt; lia).
  assert (U : 0 < 1 / inject_Z (Z.of_nat k)) by (apply Qlt_shift_div_l; lra).
  assert (AR : (0 <= argmax p < Z.of_nat k)%Z).
  { destruct (AM p) as [X _]; [destruct p; [cbn in LP; lia|easy]|]. unfold lenZ in X. lia. }
  destruct (align_classes m true k K (map (fun b => (b, b)) h) M) as [[N S] _].
  { apply Forall_map. eapply Forall_impl; [|exact F]. intros b B. split; exact B. }
  assert (EC : forall c, predicted_class k m (map (fun b => (b, b)) h) c = free_class k m h c) by (intros c; unfold predicted_class, free_class; now rewrite map_map).
  assert (N' : forall c, (c < k)%nat -> 0 <= free_class k m h c) by (intros c C; rewrite <- EC; now apply N).
  assert (S' : Qsum (map (free_class k m h) (seq 0 k)) == 1) by (rewrite <- S; apply Qsum_ext; intros c _; now rewrite EC).
  pose proof (relative_range k (free_class k m h) (argmax p) AR N') as RR. assert (T : 0 <= threshold <= confidence) by (unfold threshold; nra).
  split; [exact R|]. split; [exact T|]. split; [|apply confident_weaker; apply T].
  intros MX KB. unfold threshold. rewrite (relative_top k (free_class k m h) (argmax p) AR MX); [ring|].
  assert (G : Qsum (map (free_class k m h) (seq 0 k)) <= Qsum (map (fun _ => free_class k m h (Z.to_nat (argmax p))) (seq 0 k))) by (apply Qsum_le; intros c C; apply in_seq in C; apply MX; lia).
  rewrite S', Qsum_const in G. unfold lenZ in G. rewrite seq_length in G.
  assert (KQ : inject_Z (Z.of_nat k) <= inject_Z 1000000000000) by (rewrite <- Zle_Qle; exact KB).
  specialize (N' (Z.to_nat (argmax p)) ltac:(lia)). change (inject_Z 1000000000000) with (1000000000000 # 1) in KQ. nra.
Qed.

Lemma ex_prob_batch : prob_batch 2 [[9 # 10; 1 # 10]; [1 # 2; 1 # 2]].
Proof.
  split; [easy|]. intros p [<-|[<-|[]]]; (split; [reflexivity|]); split; try reflexivity; intros x [<-|[<-|[]]]; discriminate.
Qed.
Definition ex_quantile (l : list Q) : Q := hd 0 l.
Example C85_ex : argmax_ok ex_argmax /\ between_ok ex_quantile /\ prob_batch 2 [[9 # 10; 1 # 10]; [1 # 2; 1 # 2]] /\
  (exists s, free_fit ex_argmax ex_quantile (1 # 2) false false None [[[9 # 10; 1 # 10]; [1 # 2; 1 # 2]]] = ([[true; false]], Some s)) /\
  free_confidence None false 2 (1 # 2) [[[9 # 10; 1 # 10]; [1 # 2; 1 # 2]]] == 3 # 5 /\
  relative 2 (free_class 2 (1 # 2) [[[9 # 10; 1 # 10]; [1 # 2; 1 # 2]]]) 1 == 2 # 3.
Proof.
  split; [exact ex_argmax_ok|]. split.
  - intros [|x r] N; [easy|]. exists x, x. repeat split; try (now left); apply Qle_refl.
  - split; [exact ex_prob_batch|]. split; [eexists; vm_compute; reflexivity|]. split; vm_compute; reflexivity.
Qed.

(* C85: a second fit of the same object starts from the first one's averages and uses other rows than a new object would. *)
Theorem C85_second_fit_refuted :
  exists st, snd (free_fit ex_argmax ex_quantile (9 # 10) false false None [[[1; 0]]; [[1; 0]]; [[1; 0]]]) = st /\
    fst (free_fit ex_argmax ex_quantile (9 # 10) false false None [[[3 # 5; 2 # 5]]]) = [[true]] /\
    fst (free_fit ex_argmax ex_quantile (9 # 10) false false st [[[3 # 5; 2 # 5]]]) = [[false]].
Proof. eexists. split; [reflexivity|]. split; vm_compute; reflexivity. Qed.

(* ------------------------------------------------------------------ C86 *)
(* C86: the unlabelled probabilities of a step are scaled by the running target over the running predicted probability of
   each class and divided by their sum; both running vectors are distributions. *)
Theorem C86_alignment : forall m move k pre u l,
  (0 < k)%nat -> 0 <= m <= 1 -> Forall (fun b => prob_batch k (fst b) /\ prob_batch k (snd b)) pre -> prob_batch k u -> prob_batch k l ->
  let h := pre ++ [(u, l)] in
  exists before now st, align_fit m move None h = (before ++ [now], st) /\ length before = length pre /\
    Forall2 (aligned k (target_class move k m h) (predicted_class k m h)) u now /\
    distribution (map (predicted_class k m h) (seq 0 k)) /\ distribution (map (target_class move k m h) (seq 0 k)).
Proof.
  intros m move k pre u l K M F PU PL h. destruct (align_history m move k K pre u l F PU PL) as (a & now & s & E & L & _ & F2).
  exists a, now, (Some s). split; [exact E|]. split; [exact L|]. split; [exact F2|].
  destruct (align_classes m move k K h M) as [[A B] [C D]].
  { apply Forall_app. split; [exact F|]. constructor; [now split|constructor]. }
  split; (split; [|assumption]); intros x I; apply in_map_iff in I; destruct I as (c & <- & J); apply in_seq in J; [apply A|apply C]; lia.
Qed.

(* C86: an aligned row has no negative entry, and sums to one when no class's target is below 1e-12; it is the original
   row when prediction and target agree. *)
Theorem C86_aligned_rows_partial : forall k (target predicted : nat -> Q) p a, length p = k -> distribution p -> aligned k target predicted p a ->
  distribution (map target (seq 0 k)) -> distribution (map predicted (seq 0 k)) ->
  (forall x, In x a -> 0 <= x) /\
  ((forall c, (c < k)%nat -> (1 # 1000000000000) <= target c) -> distribution a) /\
  ((forall c, (c < k)%nat -> target c == predicted c /\ (1 # 1000000) <= predicted c) -> Forall2 Qeq a p).
Proof.
  intros k target predicted p a LP D A [T _] [P PS].
  assert (T' : forall c, (c < k)%nat -> 0 <= target c) by (intros c C; apply T, in_map, in_seq; lia).
  assert (P' : forall c, (c < k)%nat -> predicted c <= 1).
  { intros c C. apply (dist_entry_le predicted k c); [|exact PS|exact C]. intros j J. apply P, in_map, in_seq. lia. }
  destruct (aligned_distribution k target predicted p a LP D A T' P') as [N S]. split; [exact N|]. split; [exact S|]. intros H. now apply (aligned_same k target predicted).
Qed.

(* C86: with a target that has died out for a class (below 1e-12 in floats, 0 here), a row that is sure of this class
   becomes a row of zeros. *)
Theorem C86_dead_target_refuted :
  exists s, snd (align_fit 0 true None [([[1 # 2; 1 # 2]], [[1; 0]])]) = Some s /\
    Forall2 (Forall2 (Forall2 Qeq)) (fst (align_fit 0 true (Some s) [([[0; 1]], [[1; 0]])])) [[[0; 0]]].
Proof. eexists. split; [vm_compute; reflexivity|]. vm_compute. repeat constructor. Qed.

(* C86: AdaMatch uses an aligned row exactly when some class reaches p_cutoff times the average greatest probability of
   the labelled rows. *)
Theorem C86_adamatch_mask : forall cutoff k a probs_l, (forall p, In p a -> length p = k) -> (0 < k)%nat ->
  ada_mask cutoff a probs_l = map (confident (Qmean (map top probs_l) * cutoff)) a.
Proof.
  intros cutoff k a probs_l H K. unfold ada_mask. apply map_ext_in. intros p I. specialize (H p I).
  rewrite row_max_confident by (destruct p; [cbn in H; lia|easy]). unfold ada_threshold.
  now rewrite (map_ext top row_max) by exact top_spec.
Qed.

(* C86: SoftMatch's weight is in (0, 1], is 1 from the running mean upwards, and never falls when the probability grows. *)
Theorem C86_soft_weight : forall exp n_sigma mu var, exp_ok exp ->
  (forall p, 0 < soft_weight exp n_sigma mu var p <= 1) /\
  (forall p, mu <= p -> soft_weight exp n_sigma mu var p == 1) /\
  (forall p q, p <= q -> soft_weight exp n_sigma mu var p <= soft_weight exp n_sigma mu var q).
Proof. intros. now apply soft_weight_props. Qed.

(* C86: without per_class the running mean stays among the probabilities seen. *)
Theorem C86_running_mean : forall variance m lo hi batches st, 0 <= m <= 1 ->
  (forall v, In v batches -> v <> [] /\ forall x, In x v -> lo <= x <= hi) -> lo <= fst st <= hi ->
  lo <= fst (fold_left (soft_stats variance m) batches st) <= hi.
Proof.
  intros variance m lo hi batches st M. revert st. induction batches as [|v r IH]; intros st H S; [exact S|]. cbn [fold_left].
  apply IH; [intros w I; apply H; now right|]. destruct (H v (or_introl eq_refl)) as [N B]. now apply soft_stats_range.
Qed.

(* C86: with per_class, a class that has at most one row per batch loses its mean: after enough batches its threshold is
   below every probability it was predicted with, so all its rows get weight 1. *)
Theorem C86_rare_class_refuted :
  let st := fold_left (fun st rows => soft_stats_class (fun _ => 0) (1 # 2) st 1 rows) (repeat [(9 # 10, 0%Z); (8 # 10, 1%Z)] 4) (1 # 2, 1) in
  fst st < 1 # 20 /\ (forall exp, exp_ok exp -> soft_weight exp 2 (fst st) (snd st) (1 # 10) == 1).
Proof.
  split; [vm_compute; reflexivity|]. intros exp E. apply (soft_weight_props exp 2 _ _ E). vm_compute. discriminate.
Qed.

(* C86: SoftMatch takes the weight from the aligned row but the pseudo-label from the raw one: the weight can be 1
   although the pseudo-label's aligned probability is small. *)
Theorem C86_weight_class_refuted :
  let s := {| al_model := [9 # 10; 1 # 10]; al_target := [1 # 2; 1 # 2] |} in
  fst (soft_row ex_argmax ex_exp s 2 (4 # 5) 1 [3 # 5; 2 # 5]) = 0%Z /\ snd (soft_row ex_argmax ex_exp s 2 (4 # 5) 1 [3 # 5; 2 # 5]) == 1 /\
  nth 0 (align_row s [3 # 5; 2 # 5]) 0 == 1 # 7.
Proof. repeat split; vm_compute; reflexivity. Qed.

Example C86_ex :
  (exists now st, align_fit (1 # 2) true None [([[9 # 10; 1 # 10]; [1 # 2; 1 # 2]], [[1; 0]])] = ([now], Some st) /\
     Forall2 (Forall2 Qeq) now [[18 # 19; 1 # 19]; [2 # 3; 1 # 3]]) /\ exp_ok ex_exp.
Proof.
  split; [|exact ex_exp_ok]. eexists _, _. split; [vm_compute; reflexivity|]. vm_compute. repeat constructor.
Qed.

(* ------------------------------------------------------------------ C87 *)
(* C87: after any number of epochs every score is positive and at most p_cutoff, the majority class's score is p_cutoff,
   and a score moves only for a class that some row is predicted as. *)
Theorem C87_scores : forall argmax sort cutoff majority k epochs,
  argmax_ok argmax -> desc_ok sort -> 0 < cutoff -> (0 <= majority < Z.of_nat k)%Z ->
  (forall b p, In b epochs -> In p b -> length p = k /\ distribution p) ->
  let scores := fold_left (adsh_update argmax sort cutoff majority) epochs (repeat cutoff k) in
  length scores = k /\ (forall s, In s scores -> 0 < s <= cutoff) /\ nth (Z.to_nat majority) scores 0 == cutoff.
Proof.
  intros argmax sort cutoff majority k epochs AM SO C MJ H. apply (epochs_ok argmax sort SO cutoff majority C k epochs ltac:(lia) MJ H). now apply initial_ok.
Qed.

(* C87: an update: with rho the share of the rows predicted as the majority class that reach p_cutoff (1 when none does),
   at least rho * n - 1/2 of the n rows predicted as another class reach that class's new score; if the score is below
   p_cutoff, at most max(0, rho * n - 1/2) exceed it. *)
Theorem C87_score_matches_share : forall argmax sort cutoff majority scores b c,
  argmax_ok argmax -> desc_ok sort -> (c < length scores)%nat -> Z.of_nat c <> majority ->
  let tops j := map top (filter (fun p => (argmax p =? j)%Z) b) in
  let reach t l := inject_Z (lenZ (filter (fun v => Qle_bool t v) l)) in
  let exceed t l := inject_Z (lenZ (filter (fun v => negb (Qle_bool v t)) l)) in
  let n := inject_Z (lenZ (tops (Z.of_nat c))) in
  let s := nth c (adsh_update argmax sort cutoff majority scores b) 0 in
  exists rho, (if existsb (fun v => Qle_bool cutoff v) (tops majority) then rho == reach cutoff (tops majority) / inject_Z (lenZ (tops majority)) else rho = 1) /\
    (tops (Z.of_nat c) = [] -> s = nth c scores 0) /\
    (tops (Z.of_nat c) <> [] -> (exists v, In v (tops (Z.of_nat c)) /\ s == Qmin v cutoff) /\
       n * rho - (1 # 2) <= reach s (tops (Z.of_nat c)) /\ (s < cutoff -> exceed s (tops (Z.of_nat c)) <= Qmax 0 (n * rho - (1 # 2)))).
Proof.
  intros argmax sort cutoff majority scores b c AM SO C NM tops reach exceed n s.
  assert (ET : forall j, tops j = predicted_as argmax b j) by (intros j; unfold tops, predicted_as; apply map_ext; exact top_spec).
  exists (adsh_rho cutoff (predicted_as argmax b majority)).
  assert (ES : s = adsh_score sort cutoff (adsh_rho cutoff (predicted_as argmax b majority)) (nth c scores 0) (tops (Z.of_nat c))).
  { unfold s. rewrite update_nth_score by exact C. replace (Z.of_nat c =? majority)%Z with false by lia. now rewrite ET. }
  rewrite (ET majority). destruct (rho_spec cutoff (predicted_as argmax b majority)) as (R0 & R1 & R2). split.
  - destruct (existsb _ _); [now apply R1|now apply R2].
  - split.
    + intros E. rewrite ES, E. reflexivity.
    + intros NE. rewrite ES. exact (score_spec sort SO cutoff _ (nth c scores 0) (tops (Z.of_nat c)) NE R0).
Qed.

(* C87: a row is used exactly when some class reaches its score; its pseudo-label is then such a class; a row that reaches
   p_cutoff is always used. *)
Theorem C87_rows : forall argmax cutoff k scores p y used,
  argmax_ok argmax -> (0 < k)%nat -> length scores = k -> (forall s, In s scores -> 0 < s <= cutoff) -> length p = k ->
  adsh_row argmax scores p = (y, used) ->
  (used = true <-> exists c, (c < k)%nat /\ nth c scores 0 <= nth c p 0) /\
  (used = true -> (0 <= y < Z.of_nat k)%Z /\ nth (Z.to_nat y) scores 0 <= nth (Z.to_nat y) p 0) /\
  (confident cutoff p = true -> used = true).
Proof.
  intros argmax cutoff k scores p y used AM K LS R LP E.
  destruct (adsh_row_spec_gen argmax AM cutoff k scores p y used K LS R LP E) as (H1 & H2 & H3).
  split; [exact H1|]. split; [intros U; split; [exact H2|exact (H3 U)]|].
  intros C. apply H1. apply existsb_exists in C. destruct C as (x & I & X). destruct (In_nth _ _ 0 I) as (c & CL & EC). exists c. split; [lia|].
  apply Qle_bool_iff in X. rewrite EC. assert (nth c scores 0 <= cutoff) by (apply R, nth_In; lia). lra.
Qed.

Fixpoint ins (x : Q) (l : list Q) : list Q := match l with [] => [x] | y :: r => if Qle_bool y x then x :: y :: r else y :: ins x r end.
Definition ex_sort (l : list Q) : list Q := fold_right ins [] l.
Lemma ins_perm x l : Permutation (ins x l) (x :: l).
Proof. induction l as [|y r IH]; [reflexivity|]. cbn. destruct (Qle_bool y x); [reflexivity|]. rewrite IH. apply perm_swap. Qed.
Lemma ins_sorted x l : StronglySorted (fun a b => b <= a) l -> StronglySorted (fun a b => b <= a) (ins x l).
Proof.
  induction 1 as [|y r S IH F]; cbn; [repeat constructor|]. destruct (Qle_bool y x) eqn:E.
  - apply Qle_bool_iff in E. constructor; [now constructor|]. constructor; [exact E|]. eapply Forall_impl; [|exact F]. cbn. intros a A. lra.
  - constructor; [exact IH|]. apply (Permutation_Forall (Permutation_sym (ins_perm x r))). constructor; [|exact F].
    destruct (Qlt_le_dec x y) as [L|L]; [now apply Qlt_le_weak|]. apply Qle_bool_iff in L. congruence.
Qed.
Lemma ex_sort_ok : desc_ok ex_sort.
Proof.
  intros l. assert (P : Permutation (ex_sort l) l) by (induction l as [|x r IH]; [reflexivity|]; cbn; now rewrite ins_perm, IH).
  split; [exact P|]. assert (S : StronglySorted (fun a b => b <= a) (ex_sort l)) by (clear P; induction l as [|x r IH]; [constructor|]; cbn; now apply ins_sorted).
  rewrite <- (Permutation_length P). clear P. induction S as [|y r S IH F]; intros i j [I J]; [cbn in J; lia|]. rewrite Forall_forall in F.
  destruct i as [|i], j as [|j]; cbn [nth length] in *; [apply Qle_refl|apply F, nth_In; lia|lia|apply IH; lia].
Qed.
Definition ex_probs : list (list Q) := [[19 # 20; 1 # 20]; [4 # 5; 1 # 5]; [3 # 10; 7 # 10]; [2 # 5; 3 # 5]].
(* one of the two majority rows is confident, so the better one of the two other rows sets the score *)
Example C87_ex : desc_ok ex_sort /\ argmax_ok ex_argmax /\ (forall p, In p ex_probs -> length p = 2%nat /\ distribution p) /\
  Forall2 Qeq (adsh_update ex_argmax ex_sort (9 # 10) 0 [9 # 10; 9 # 10] ex_probs) [9 # 10; 7 # 10] /\
  map (adsh_row ex_argmax (adsh_update ex_argmax ex_sort (9 # 10) 0 [9 # 10; 9 # 10] ex_probs)) ex_probs = [(0%Z, true); (0%Z, false); (1%Z, true); (1%Z, false)].
Proof.
  split; [exact ex_sort_ok|]. split; [exact ex_argmax_ok|]. split.
  - intros p [<-|[<-|[<-|[<-|[]]]]]; (split; [reflexivity|]); split; try reflexivity; intros x [<-|[<-|[]]]; discriminate.
  - split; [vm_compute; repeat constructor|vm_compute; reflexivity].
Qed.

(* C87: when no row predicted as the majority class is confident, every row predicted as another class is used, even one
   with a smaller probability than an unused majority row. *)
Theorem C87_no_confident_majority_refuted :
  let b := [[89 # 100; 11 # 100]; [49 # 100; 51 # 100]] in
  map (adsh_row ex_argmax (adsh_update ex_argmax ex_sort (9 # 10) 0 [9 # 10; 9 # 10] b)) b = [(0%Z, false); (1%Z, true)].
Proof. vm_compute. reflexivity. Qed.

Print Assumptions C84_pool_partial.
Print Assumptions C84_pool_refuted.
Print Assumptions C84_threshold_follows_history.
Print Assumptions C84_threshold_range.
Print Assumptions C84_second_fit_refuted.
Print Assumptions C85_threshold_follows_history.
Print Assumptions C85_threshold_range.
Print Assumptions C85_second_fit_refuted.
Print Assumptions C86_alignment.
Print Assumptions C86_aligned_rows_partial.
Print Assumptions C86_dead_target_refuted.
Print Assumptions C86_adamatch_mask.
Print Assumptions C86_soft_weight.
Print Assumptions C86_running_mean.
Print Assumptions C86_rare_class_refuted.
Print Assumptions C86_weight_class_refuted.
Print Assumptions C87_scores.
Print Assumptions C87_score_matches_share.
Print Assumptions C87_rows.
Print Assumptions C87_no_confident_majority_refuted.
