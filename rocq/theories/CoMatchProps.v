From Coq Require Import QArith Qminmax Permutation Lqa Lia ZifyBool ZifyNat.
From Verif Require Import Prelude QFacts ListFacts DeepBatchModel DeepBatchSpec DeepBatchProofs DeepBatchProps DeepLossModel DeepLossSpec DeepLossProofs DeepLossProps DeepThreshModel DeepThreshSpec DeepThreshProofs DeepEmaModel DeepEmaSpec DeepEmaProofs CoMatchModel CoMatchSpec CoMatchProofs.
Local Open Scope Z_scope.
Local Open Scope Q_scope.
Local Open Scope list_scope.

(* ------------------------------------------------------------------ C92: the memory and the pseudo-labels *)
(* C92: whatever batches are added, the memory holds the last [size] rows of what was added, each batch counting with its
   first [size] rows only. *)
Theorem C92_memory : forall (A : Type) (zero : A) size batches, (0 < size)%nat ->
  Permutation (ring_stored (fold_left ring_push batches (ring_init zero size))) (recent size (concat (map (firstn size) batches))) /\
  ((forall b, In b batches -> (length b <= size)%nat) ->
   Permutation (ring_stored (fold_left ring_push batches (ring_init zero size))) (recent size (concat batches))).
Proof.
  intros A zero size batches S.
  assert (H : Permutation (ring_stored (fold_left ring_push batches (ring_init zero size))) (recent size (concat (map (firstn size) batches)))).
  { apply ring_stored_perm; [exact S|]. assert (G : forall (bs : list (list A)) (q : ring A) (h : list A), ring_inv size q h -> ring_inv size (fold_left ring_push bs q) (h ++ concat (map (firstn size) bs))).
    { induction bs as [|b bs IH]; intros q h I; cbn [fold_left map concat]; [now rewrite app_nil_r|]. rewrite app_assoc. apply IH. now apply ring_push_inv. }
    apply (G batches (ring_init zero size) []). now apply ring_init_inv. }
  split; [exact H|]. intros L. rewrite (map_ext_in _ (fun b => b)) in H; [now rewrite map_id in H|]. intros b I. apply firstn_all2. now apply L.
Qed.
(* C92 (refuted): the memory always holds the newest rows.  Of a batch larger than the memory the first rows are kept, not
   the last ones. *)
Theorem C92_newest_rows_refuted :
  ~ (forall (A : Type) (zero : A) size batches, (0 < size)%nat -> Permutation (ring_stored (fold_left ring_push batches (ring_init zero size))) (recent size (concat batches))).
Proof.
  intros H. specialize (H nat 0%nat 2%nat [[1; 2; 3]%nat] ltac:(lia)). vm_compute in H.
  assert (I : In 1%nat [2; 3]%nat) by (apply (Permutation_in _ H); now left). cbn in I. lia.
Qed.
(* C92: a memory no larger than the unlabelled batch never receives a labelled row. *)
Theorem C92_small_memory : forall l2 k d n_l n_u size o y a, outputs_ok n_l n_u k d o -> length a = n_u -> (size <= n_u)%nat ->
  firstn size (step_rows l2 k o y a) = firstn size (combine (map l2 (feats_w o)) a).
Proof.
  intros l2 k d n_l n_u size o y a (_ & _ & _ & D & _) LA L. unfold step_rows. rewrite map_app.
  assert (E : forall (x1 x2 : list (list Q)) (z1 z2 : list (list Q)), length x1 = length z1 -> combine (x1 ++ x2) (z1 ++ z2) = combine x1 z1 ++ combine x2 z2).
  { induction x1 as [|x x1 IH]; intros x2 [|z z1] z2 Lz; try discriminate Lz; [reflexivity|]. cbn. now rewrite IH by (cbn in Lz; lia). }
  rewrite E by (rewrite map_length, LA; apply D). rewrite firstn_app, combine_length, map_length, (proj1 D), LA, Nat.min_id.
  replace (size - n_u)%nat with 0%nat by lia. cbn [firstn]. now rewrite app_nil_r.
Qed.

(* C92, C93: a fit either refuses its arguments, or in every step t the weak probabilities are aligned to a(t) with the mean of
   the last da_len batch means (the current one included), smoothed to s(t) with the memory of the steps before, and the
   loss is the stated one. *)
Theorem C93_objective : forall (St : Type) (G : Gen St) softmax sharp log_softmax ce argmax exp log l2 cfg net y n_l n_u n_s0 n_s1 b max_epochs sl su k d,
  gen_ok G -> softmax_ok softmax -> softmax_ok sharp -> (forall z, length (log_softmax z) = length z) -> (forall x, 0 < exp x) -> (0 < k)%nat ->
  length y = n_l -> (forall c, In c y -> (0 <= c < Z.of_nat k)%Z) -> (forall t il iu, outputs_ok (length il) (length iu) k d (net t il iu)) ->
  match cm_fit softmax sharp log_softmax ce argmax exp log l2 cfg G net y n_l n_u n_s0 n_s1 b max_epochs sl su with
  | Ok losses => numbers_ok cfg /\ n_s0 = n_u /\ n_s1 = n_u /\ exists epochs (a s : nat -> list (list Q)),
      fit_batches G n_l n_u b max_epochs sl su = Ok epochs /\ length losses = length (concat epochs) /\
      forall t, (t < length (concat epochs))%nat ->
        let o := out_at net (concat epochs) t in
        aligned_step cfg k (map (weak_at sharp net (concat epochs)) (seq 0 (S t))) (map softmax (logits_l o)) (weak_at sharp net (concat epochs) t) (a t) /\
        smoothed_step exp cfg k (memory_at l2 cfg k net y (concat epochs) a t) (map l2 (feats_w o)) (a t) (s t) /\
        step_loss log_softmax ce argmax exp log l2 cfg k o (labels_at y (concat epochs) t) (s t) (nth t losses 0)
  | Err e => e = InductiveValidationError /\ (n_l = 0%nat \/ n_u = 0%nat \/ n_s0 <> n_u \/ n_s1 <> n_u \/ (b <= 0)%Z \/ (max_epochs <= 0)%Z \/ ~ numbers_ok cfg)
  end.
Proof. intros. eapply cm_fit_spec; eassumption. Qed.

(* C92, partial: in such a fit the aligned rows, the remembered rows and the smoothed rows are distributions, if the alignment
   target is uniform (or there is no alignment) and no similarity is below 1e-12.  Missing: the labelled target, where it
   is false (see C86_dead_target_refuted), and very small temperatures. *)
Theorem C92_pseudo_labels_partial : forall sharp l2 exp cfg k d net y steps labelled a s,
  softmax_ok sharp -> (0 < k)%nat -> (Z.of_nat k <= 1000000000000)%Z -> 0 <= smoothing cfg <= 1 ->
  (forall f g, (1 # 1000000000000) <= likeness exp cfg f g) ->
  dist_uniform cfg = true \/ dist_align cfg = false \/ da_len cfg = 0%nat ->
  (forall u c, (u < length steps)%nat -> In c (labels_at y steps u) -> (0 <= c < Z.of_nat k)%Z) ->
  (forall u, (u < length steps)%nat -> snd (nth u steps ([], [])) <> [] /\
     outputs_ok (length (fst (nth u steps ([], [])))) (length (snd (nth u steps ([], [])))) k d (out_at net steps u)) ->
  (forall t, (t < length steps)%nat ->
     aligned_step cfg k (map (weak_at sharp net steps) (seq 0 (S t))) (labelled t) (weak_at sharp net steps t) (a t) /\
     smoothed_step exp cfg k (memory_at l2 cfg k net y steps a t) (map l2 (feats_w (out_at net steps t))) (a t) (s t)) ->
  forall t, (t < length steps)%nat ->
    (forall p, In p (a t) -> length p = k /\ distribution p) /\ (forall p, In p (s t) -> length p = k /\ distribution p) /\
    (forall m, In m (memory_at l2 cfg k net y steps a t) -> length (snd m) = k /\ distribution (snd m)).
Proof.
  intros sharp l2 exp cfg k d net y steps labelled a s SH K KB SA W UN Y NO H t T. split; [|split].
  - apply (aligned_rows sharp l2 exp cfg k d net y steps labelled a s); try assumption; try (intros u Hu; now apply NO || now apply H).
  - apply (smoothed_rows sharp l2 exp cfg k d net y steps labelled a s); try assumption; try (intros u Hu; now apply NO || now apply H).
  - apply (memory_rows sharp l2 exp cfg k d net y steps labelled a s); try assumption; try (intros u Hu; now apply NO || now apply H). lia.
Qed.

(* ------------------------------------------------------------------ C93: the graph of a batch *)
(* C93: every row's links are non-negative and sum to 1; a row's link to itself is its strongest; two different rows are
   linked only if the inner product of their probabilities reaches the threshold, and then in both directions. *)
Theorem C93_graph : forall threshold probs n k, table n k probs -> (forall p, In p probs -> distribution p) -> threshold <= 1 ->
  table n n (pseudo_graph threshold probs) /\
  forall i, (i < n)%nat ->
    distribution (nth i (pseudo_graph threshold probs) []) /\
    (forall j, (j < n)%nat -> cell (pseudo_graph threshold probs) i j == link_share threshold probs i j) /\
    (forall j, (j < n)%nat -> link_share threshold probs i j <= link_share threshold probs i i) /\
    (forall j, (j < n)%nat -> i <> j -> 0 < link_share threshold probs i j -> threshold <= inner (nth i probs []) (nth j probs []) /\ 0 < link_share threshold probs j i).
Proof.
  intros threshold probs n k TP DP T1.
  assert (NN : forall i c, (i < n)%nat -> (c < k)%nat -> 0 <= cell probs i c).
  { intros i c I C. assert (J : In (nth i probs []) probs) by (apply nth_In; rewrite (proj1 TP); exact I). apply (DP _ J), nth_In. rewrite (proj2 TP _ J). exact C. }
  pose proof (graph_shape threshold k n probs TP NN T1) as GS. pose proof (graph_entry threshold k n probs TP NN T1) as GE.
  pose proof (link_nonneg threshold k n probs TP NN T1) as LN. pose proof (link_total threshold k n probs TP NN T1) as LT.
  split; [exact GS|]. intros i I. specialize (LT i I). set (tot := Qsum (map (link threshold probs i) (seq 0 n))) in *.
  assert (P : 0 < tot) by lra. assert (ES : forall j, link_share threshold probs i j = link threshold probs i j / tot) by (intros j; unfold link_share, tot; now rewrite (proj1 TP)).
  assert (LU : forall j, (j < n)%nat -> link threshold probs i j <= 1).
  { intros j J. unfold link. destruct (Nat.eqb_spec i j); [lra|]. cbn zeta. destruct (_ || _); [|lra].
    assert (JI : In (nth i probs []) probs) by (apply nth_In; rewrite (proj1 TP); exact I). assert (JJ : In (nth j probs []) probs) by (apply nth_In; rewrite (proj1 TP); exact J).
    assert (B : forall (p q : list Q), length p = length q -> (forall x, In x p -> 0 <= x) -> (forall x, In x q -> 0 <= x <= 1) -> inner p q <= Qsum p).
    { induction p as [|x p IH]; intros [|z q] L Hp Hq; try discriminate L; [cbn; lra|]. unfold inner in *. cbn [combine map fst snd]. rewrite !Qsum_cons.
      specialize (IH q ltac:(cbn in L; lia) ltac:(intros; apply Hp; now right) ltac:(intros; apply Hq; now right)).
      pose proof (Hp x (or_introl eq_refl)). pose proof (Hq z (or_introl eq_refl)). nra. }
    rewrite <- (proj2 (DP _ JI)). apply B; [rewrite (proj2 TP _ JI), (proj2 TP _ JJ); reflexivity|apply (DP _ JI)|].
    intros x X. split; [now apply (DP _ JJ)|]. rewrite <- (proj2 (DP _ JJ)). apply sum_ge_entry; [apply (DP _ JJ)|exact X]. }
  split; [|split; [|split]].
  - apply (distribution_nth n); [now apply (table_nth n n)|]. split.
    + intros j J. specialize (GE i j I J). unfold cell in GE. rewrite GE, ES. apply Qle_shift_div_l; [exact P|]. specialize (LN i j I J). lra.
    + rewrite (Qsum_ext _ (fun j => link threshold probs i j / tot)).
      * rewrite Qsum_div by (apply Q_neq; exact P). fold tot. field. apply Q_neq. exact P.
      * intros j J. apply in_seq in J. specialize (GE i j I ltac:(lia)). unfold cell in GE. rewrite GE, ES. reflexivity.
  - intros j J. now apply GE.
  - intros j J. rewrite !ES. specialize (LU j J). assert (E1 : link threshold probs i i == 1) by (unfold link; now rewrite Nat.eqb_refl).
    apply Qle_shift_div_l; [exact P|]. assert (link threshold probs i j / tot * tot == link threshold probs i j) by (field; apply Q_neq; exact P). lra.
  - intros j J NE H. rewrite ES in H.
    assert (PL : 0 < link threshold probs i j).
    { destruct (Qlt_le_dec 0 (link threshold probs i j)) as [|N]; [assumption|]. exfalso. assert (link threshold probs i j / tot * tot == link threshold probs i j) by (field; apply Q_neq; exact P).
      assert (0 < link threshold probs i j / tot * tot) by (apply Qmult_lt_0_compat; assumption). lra. }
    assert (SYM : link threshold probs j i == link threshold probs i j).
    { unfold link. rewrite (Nat.eqb_sym j i). destruct (Nat.eqb i j); [reflexivity|]. cbn zeta.
      assert (IS : inner (nth j probs []) (nth i probs []) == inner (nth i probs []) (nth j probs [])).
      { generalize (nth i probs []) (nth j probs []). induction l as [|x p IH]; intros [|z q]; try reflexivity. unfold inner in *. cbn [combine map fst snd]. rewrite !Qsum_cons, (IH q). ring. }
      assert (BS : Qle_bool threshold (inner (nth j probs []) (nth i probs [])) = Qle_bool threshold (inner (nth i probs []) (nth j probs []))) by (apply Bool.eq_iff_eq_true; rewrite !Qle_bool_iff, IS; reflexivity).
      rewrite BS. destruct (_ || _); [exact IS|reflexivity]. }
    split.
    + unfold link in PL. destruct (Nat.eqb_spec i j); [contradiction|]. cbn zeta in PL. destruct (Qle_bool threshold 0) eqn:T0; cbn [orb] in PL; [apply Qle_bool_iff in T0; lra|].
      destruct (Qle_bool threshold (inner (nth i probs []) (nth j probs []))) eqn:E; [now apply Qle_bool_iff in E|lra].
    + unfold link_share. rewrite (proj1 TP), SYM. pose proof (link_total threshold k n probs TP NN T1 j J). apply Qlt_shift_div_l; lra.
Qed.

(* a concrete fit: 2 classes, 1 feature *)
Definition ex_cfg : config :=
  {| lambda_u := 1; lambda_c := 1; p_cutoff := 6 # 10; temperature := 1 # 2; contrast_cutoff := 1 # 2; smoothing := 9 # 10;
     queue_size := 3; min_fill := 0; da_len := 2; dist_align := true; dist_uniform := true; hard_label := true |}.
Definition ex_net2 (t : Z) (il iu : list nat) : outputs :=
  let tab idx := map (fun i => [1; inject_Z (1 + t + Z.of_nat i)]) idx in let feat idx := map (fun _ : nat => [1]) idx in
  {| logits_l := tab il; feats_l := feat il; logits_w := tab iu; feats_w := feat iu;
     logits_s0 := tab iu; feats_s0 := feat iu; logits_s1 := tab iu; feats_s1 := feat iu |}.
Lemma ex_net2_ok t il iu : outputs_ok (length il) (length iu) 2 1 (ex_net2 t il iu).
Proof. repeat split; cbn; rewrite ?map_length; try reflexivity; intros r I; apply in_map_iff in I; now destruct I as (i & <- & _). Qed.
Example C93_ex :
  numbers_ok ex_cfg /\
  (exists losses, cm_fit ex_softmax ex_softmax ex_log_softmax ex_ce ex_argmax (fun _ => 1) (fun x => x) (fun f => f) ex_cfg ex_gen ex_net2 [1%Z] 1 2 2 2 1 1 0%nat 0%nat = Ok losses /\ length losses = 2%nat) /\
  (forall f g, (1 # 1000000000000) <= likeness (fun _ => 1) ex_cfg f g) /\
  cell (pseudo_graph (1 # 2) [[1; 0]; [8 # 10; 2 # 10]; [0; 1]]) 0 1 == 8 # 18 /\ cell (pseudo_graph (1 # 2) [[1; 0]; [8 # 10; 2 # 10]; [0; 1]]) 0 2 == 0.
Proof.
  split; [repeat split; cbn; lra || lia|]. split; [eexists; split; [vm_compute; reflexivity|reflexivity]|]. split; [intros; unfold likeness; lra|]. split; vm_compute; reflexivity.
Qed.
Example C92_ex : ring_stored (fold_left ring_push [[1; 2]; [3; 4]]%nat (ring_init 0%nat 3)) = [4; 2; 3]%nat /\ recent 3 [1; 2; 3; 4]%nat = [2; 3; 4]%nat.
Proof. split; reflexivity. Qed.

(* C93: a label outside 0..k-1 never passes: the fit is refused. *)
Theorem C93_bad_label : forall (St : Type) (G : Gen St) softmax sharp log_softmax ce argmax exp log l2 cfg net y n_l n_u n_s0 n_s1 b max_epochs sl su k d i,
  gen_ok G -> (i < n_l)%nat -> ~ (0 <= nth i y 0 < Z.of_nat k)%Z -> (forall t il iu, outputs_ok (length il) (length iu) k d (net t il iu)) ->
  cm_fit softmax sharp log_softmax ce argmax exp log l2 cfg G net y n_l n_u n_s0 n_s1 b max_epochs sl su = Err InductiveValidationError.
Proof.
  intros until i. intros GO I BAD OO. unfold cm_fit.
  destruct (Nat.eqb n_l 0 || Nat.eqb n_u 0 || Nat.eqb n_s0 0 || Nat.eqb n_s1 0); [reflexivity|]. destruct (negb (Nat.eqb n_u n_s0) || negb (Nat.eqb n_u n_s1)); [reflexivity|].
  assert (CN : match cm_numbers cfg with Ok _ => True | Err e => e = InductiveValidationError end) by (unfold cm_numbers; repeat match goal with |- context [if ?c then _ else _] => destruct c end; easy).
  destruct (cm_numbers cfg) as [[]|e]; cbn [bind]; [|now rewrite CN]. clear CN.
  pose proof (fit_batches_spec G n_l n_u b max_epochs sl su GO) as FB. destruct (fit_batches G n_l n_u b max_epochs sl su) as [epochs|e] eqn:E; cbn [bind]; [|destruct FB as [-> _]; reflexivity]. clear FB.
  destruct (row_is_used G n_l n_u b max_epochs sl su epochs i GO E I) as (il & iu & J1 & J2). clear E. revert J1. generalize (concat epochs) 0%Z ((None, None) : state).
  assert (CK : forall o ys, match cm_check o ys with Ok _ => True | Err e => e = InductiveValidationError end) by (intros; unfold cm_check; repeat match goal with |- context [if ?c then _ else _] => destruct c end; easy).
  induction l as [|[jl ju] rest IH]; intros t st J; [easy|]. cbn [cm_steps]. destruct J as [J|J].
  - injection J as -> ->. unfold cm_step. pose proof (CK (net t il iu) (map (fun i => nth i y 0%Z) il)) as CKI. unfold cm_check in *.
    destruct (negb _ || _); [reflexivity|]. destruct (negb _); [reflexivity|]. destruct (negb _ || _); [reflexivity|]. destruct (negb _); [reflexivity|].
    destruct (existsb _ _) eqn:X; [reflexivity|]. exfalso. apply Bool.not_true_iff_false in X. apply X. apply existsb_exists. exists (nth i y 0%Z). split; [now apply (in_map (fun i => nth i y 0%Z))|].
    destruct (OO t il iu) as (T & _). rewrite (table_width (length il) k _) by (assumption || (destruct il; [easy|cbn; lia])). lia.
  - unfold cm_step at 1. pose proof (CK (net t jl ju) (map (fun i => nth i y 0%Z) jl)) as CKI. destruct (cm_check _ _) as [[]|e]; cbn [bind]; [|now rewrite CKI].
    destruct st as [bank0 da0]. destruct (cm_align _ _ _ _) as [probs da]. cbn [bind]. rewrite IH by exact J. reflexivity.
Qed.
Print Assumptions C92_memory.
Print Assumptions C92_newest_rows_refuted.
Print Assumptions C92_small_memory.
Print Assumptions C92_pseudo_labels_partial.
Print Assumptions C93_objective.
Print Assumptions C93_bad_label.
Print Assumptions C93_graph.
