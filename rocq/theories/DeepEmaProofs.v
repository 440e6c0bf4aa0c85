From Coq Require Import QArith Qminmax Qpower Permutation Lqa Lia ZifyBool ZifyNat.
From Verif Require Import Prelude QFacts ListFacts SampleServiceProofs SamplingSpec EnsembleModel S4vmProofs DeepBatchModel DeepBatchSpec DeepBatchProofs DeepLossModel DeepLossSpec DeepLossProofs DeepThreshSpec DeepThreshProofs DeepEmaModel DeepEmaSpec.
Local Open Scope Z_scope.
Local Open Scope Q_scope.
Local Open Scope list_scope.

(* ------------------------------------------------------------------ warm-up *)
Lemma warmup_spec f total : ramp_length f total (warmup_steps f total).
Proof.
  unfold ramp_length, warmup_steps. destruct (Qle_bool f 0) eqn:E.
  - apply Qle_bool_iff in E. split; [reflexivity|lra].
  - assert (~ f <= 0) by (intros H; apply Qle_bool_iff in H; congruence). split; [lra|].
    intros _. exists (round_even (f * inject_Z total)). split; [apply round_even_nearest|reflexivity].
Qed.
Lemma warmup_nonneg f total : (0 <= warmup_steps f total)%Z.
Proof. unfold warmup_steps. destruct (Qle_bool f 0); lia. Qed.
Lemma inject_pos z : (0 < z)%Z -> 0 < inject_Z z.
Proof. intros H. change 0 with (inject_Z 0). now rewrite <- Zlt_Qlt. Qed.
Lemma inject_nonneg z : (0 <= z)%Z -> 0 <= inject_Z z.
Proof. intros H. change 0 with (inject_Z 0). now rewrite <- Zle_Qle. Qed.
Lemma warm_ramp m t : (0 <= m)%Z -> (0 <= t)%Z -> ramp m t (warm_factor m t).
Proof.
  intros M T. unfold ramp, warm_factor. destruct (Z.leb_spec m 0).
  - split; [lia|reflexivity].
  - assert (P : 0 < inject_Z m) by (apply inject_pos; lia). split; intros H1.
    + rewrite Q.min_l; [field; lra|]. apply Qle_shift_div_r; [exact P|]. rewrite Qmult_1_l, <- Zle_Qle. lia.
    + apply Q.min_r. apply Qle_shift_div_l; [exact P|]. rewrite Qmult_1_l, <- Zle_Qle. lia.
Qed.
Lemma ramp_unique m t v v' : (0 <= t)%Z -> ramp m t v -> ramp m t v' -> v == v'.
Proof.
  intros T [A B] [A' B']. destruct (Z_lt_le_dec t m) as [L|L].
  - specialize (A L). specialize (A' L). assert (P : 0 < inject_Z m) by (apply inject_pos; lia). rewrite <- A' in A.
    apply Qmult_inj_r in A; [exact A|lra].
  - rewrite (B L), (B' L). reflexivity.
Qed.
Lemma ramp_range m t v : (0 <= t)%Z -> ramp m t v -> 0 <= v <= 1.
Proof.
  intros T [A B]. destruct (Z_lt_le_dec t m) as [L|L]; [|rewrite (B L); lra].
  specialize (A L). assert (P : 0 < inject_Z m) by (apply inject_pos; lia). assert (T' : 0 <= inject_Z t) by now apply inject_nonneg.
  assert (L' : inject_Z t < inject_Z m) by now rewrite <- Zlt_Qlt. nra.
Qed.
Lemma ramp_mono m t t' v v' : (0 <= t <= t')%Z -> ramp m t v -> ramp m t' v' -> v <= v'.
Proof.
  intros T R R'. pose proof (ramp_range m t v ltac:(lia) R) as RR. destruct R as [A B], R' as [A' B'].
  destruct (Z_lt_le_dec t' m) as [L|L]; [|rewrite (B' L); lra].
  specialize (A ltac:(lia)). specialize (A' L). assert (P : 0 < inject_Z m) by (apply inject_pos; lia).
  assert (inject_Z t <= inject_Z t') by (rewrite <- Zle_Qle; lia). nra.
Qed.

(* ------------------------------------------------------------------ tables *)
Lemma entries_ext n k f g : (forall r c, (r < n)%nat -> (c < k)%nat -> f r c == g r c) -> Qsum (entries_of n k f) == Qsum (entries_of n k g).
Proof.
  intros H. unfold entries_of. assert (I : forall r, In r (seq 0 n) -> (r < n)%nat) by (intros r; rewrite in_seq; lia). revert I.
  generalize (seq 0 n). induction l as [|r l IH]; intros I; [reflexivity|]. cbn [flat_map]. rewrite !Qsum_app, IH by (intros; apply I; now right).
  apply Qplus_comp; [|reflexivity]. apply Qsum_ext. intros c C. apply in_seq in C. apply H; [apply I; now left|lia].
Qed.
Lemma entries_length n k f : length (entries_of n k f) = (n * k)%nat.
Proof.
  unfold entries_of. rewrite <- (seq_length n 0) at 2. generalize (seq 0 n). induction l as [|r l IH]; [reflexivity|].
  cbn [flat_map length]. rewrite app_length, map_length, seq_length, IH. reflexivity.
Qed.
Lemma average_entries n k f g v : (forall r c, (r < n)%nat -> (c < k)%nat -> f r c == g r c) -> average (entries_of n k f) v -> average (entries_of n k g) v.
Proof.
  intros H [A B]. unfold average, lenZ in *. rewrite entries_length in *. split; [rewrite A; now apply entries_ext|].
  intros E. apply B. apply length_zero_iff_nil. apply length_zero_iff_nil in E. rewrite entries_length in *. exact E.
Qed.
Lemma average_ext (l l' : list Q) v : Forall2 Qeq l l' -> average l v -> average l' v.
Proof.
  intros F [A B]. assert (L : length l = length l') by (clear -F; induction F; cbn; congruence). split.
  - unfold lenZ in *. rewrite <- L, A. clear A B L. induction F; [reflexivity|]. rewrite !Qsum_cons, H, IHF. reflexivity.
  - intros ->. apply B. inversion F. reflexivity.
Qed.

Lemma Forall2_map_same {A} (f g : A -> Q) l : (forall x, In x l -> f x == g x) -> Forall2 Qeq (map f l) (map g l).
Proof. induction l as [|x l IH]; intros H; [constructor|]. cbn. constructor; [apply H; now left|]. apply IH. intros; apply H; now right. Qed.

Lemma table_nth n k t r : table n k t -> (r < n)%nat -> length (nth r t []) = k.
Proof. intros [L H] R. apply H, nth_In. lia. Qed.
Lemma table_map n k (f : list Q -> list Q) t : table n k t -> (forall r, length (f r) = length r) -> table n k (map f t).
Proof. intros [L H] F. split; [now rewrite map_length|]. intros r I. apply in_map_iff in I. destruct I as (x & <- & I). rewrite F. now apply H. Qed.
Lemma table_width n k t : (0 < n)%nat -> table n k t -> width t = k.
Proof. intros N [L H]. destruct t as [|r t]; [cbn in L; lia|]. apply H. now left. Qed.
Lemma zip2_spec (f : Q -> Q -> Q) n k a b : table n k a -> table n k b ->
  table n k (zipw (zipw f) a b) /\ forall r c, (r < n)%nat -> (c < k)%nat -> cell (zipw (zipw f) a b) r c = f (cell a r c) (cell b r c).
Proof.
  intros A B. assert (L : length a = length b) by (destruct A, B; congruence). pose proof (proj1 A) as LA. unfold cell.
  assert (E : zipw (zipw f) a b = map (fun r => zipw f (nth r a []) (nth r b [])) (seq 0 n)) by (rewrite (zipw_seq _ a b [] []) by exact L; now rewrite LA).
  rewrite E. split.
  - split; [now rewrite map_length, seq_length|]. intros x I. apply in_map_iff in I. destruct I as (r & <- & I). apply in_seq in I.
    rewrite zipw_length; rewrite (table_nth n k a r A) by lia; [reflexivity|]. now rewrite (table_nth n k b r B) by lia.
  - intros r c R C. rewrite (nth_map _ _ r 0%nat) by (rewrite seq_length; exact R). rewrite seq_nth by exact R. cbn [Nat.add].
    rewrite (zipw_seq _ _ _ 0 0) by (rewrite (table_nth n k a r A), (table_nth n k b r B) by exact R; reflexivity).
    rewrite (table_nth n k a r A R). rewrite (nth_map _ _ c 0%nat) by (rewrite seq_length; exact C). now rewrite seq_nth by exact C.
Qed.
Lemma row_entries k (l : list Q) : length l = k -> l = map (fun c => nth c l 0) (seq 0 k).
Proof. intros <-. symmetry. apply nth_seq. Qed.
Lemma concat_entries n k t : table n k t -> concat t = entries_of n k (cell t).
Proof.
  intros [L H]. unfold entries_of, cell. rewrite <- L. clear L. rewrite flat_map_concat_map.
  rewrite <- (nth_seq [] t) at 1. f_equal. apply map_ext_in. intros r I. apply in_seq in I. apply row_entries, H, nth_In. lia.
Qed.
Lemma mse_spec n k a b : (0 < n)%nat -> (0 < k)%nat -> table n k a -> table n k b ->
  average (entries_of n k (fun r c => square (cell a r c - cell b r c))) (mse a b).
Proof.
  intros N K A B. destruct (zip2_spec (fun x y => (x - y) * (x - y)) n k a b A B) as [T E]. unfold mse.
  rewrite (concat_entries n k _ T). apply (average_entries n k (cell (zipw (zipw (fun x y => (x - y) * (x - y))) a b))).
  - intros r c R C. rewrite (E r c R C). reflexivity.
  - apply average_mean. intros X. apply length_zero_iff_nil in X. rewrite entries_length in X. nia.
Qed.
Lemma ce_mean_spec (ce : list Q -> Z -> Q) n logits yb : (0 < n)%nat -> length logits = n -> length yb = n ->
  average (map (fun r => ce (nth r logits []) (nth r yb 0%Z)) (seq 0 n)) (ce_mean ce logits yb).
Proof.
  intros N A B. unfold ce_mean. rewrite (zipw_seq _ logits yb [] 0%Z) by lia. rewrite A. apply average_mean.
  destruct n; [lia|]. cbn. discriminate.
Qed.

Lemma check_step_ok n_l n_u k ll yb lw ls : (0 < n_l)%nat -> (0 < n_u)%nat -> table n_l k ll -> table n_u k lw -> table n_u k ls ->
  (forall c, In c yb -> (0 <= c < Z.of_nat k)%Z) -> check_step ll yb lw ls = Ok tt.
Proof.
  intros NL NU A B C Y. unfold check_step, same_shape. rewrite (table_width n_l k ll NL A), (table_width n_u k lw NU B), (table_width n_u k ls NU C).
  rewrite (proj1 B), (proj1 C), !Nat.eqb_refl. cbn [negb andb].
  replace (existsb _ yb) with false; [reflexivity|]. symmetry. apply Bool.not_true_iff_false. intros E. apply existsb_exists in E.
  destruct E as (c & I & E). apply Y in I. lia.
Qed.

(* ------------------------------------------------------------------ Temporal Ensembling *)
Lemma put_rows_spec idx : forall v m i, NoDup idx -> length v = length idx -> (forall j, In j idx -> (j < length m)%nat) ->
  length (put_rows m idx v) = length m /\
  nth i (put_rows m idx v) [] =
    match find (fun r => Nat.eqb (nth r idx 0%nat) i) (seq 0 (length idx)) with Some r => nth r v [] | None => nth i m [] end.
Proof.
  induction idx as [|j idx IH]; intros v m i ND L H; [now destruct v|].
  destruct v as [|x v]; [discriminate L|]. apply NoDup_cons_iff in ND. destruct ND as [NI ND].
  unfold put_rows in *. cbn [combine fold_left fst snd length seq find nth].
  destruct (IH v (update m j (fun _ => x)) i ND ltac:(cbn in L; lia) ltac:(intros q I; rewrite update_length; apply H; now right)) as [L1 E1].
  rewrite update_length in L1. split; [exact L1|]. rewrite E1. rewrite update_nth by (apply H; now left).
  rewrite <- seq_shift.
  assert (F : forall l, find (fun r => Nat.eqb (nth r (j :: idx) 0%nat) i) (map S l) = option_map S (find (fun r => Nat.eqb (nth r idx 0%nat) i) l)).
  { induction l as [|q l IHl]; [reflexivity|]. cbn [map find nth]. destruct (Nat.eqb (nth q idx 0%nat) i); [reflexivity|exact IHl]. }
  rewrite F. destruct (Nat.eqb_spec j i) as [->|NE].
  - destruct (find _ (seq 0 (length idx))) as [r|] eqn:E.
    + exfalso. apply NI. apply find_some in E. destruct E as [I E]. apply in_seq in I. apply Nat.eqb_eq in E. rewrite <- E. apply nth_In. lia.
    + now rewrite Nat.eqb_refl.
  - destruct (find _ (seq 0 (length idx))) as [r|] eqn:E; [reflexivity|]. cbn [option_map]. replace (Nat.eqb i j) with false by lia. reflexivity.
Qed.

Definition say (i c : nat) : Q -> view -> Q := fun acc v => match said i c v with Some x => x | None => acc end.
Lemma say_comp i c l : forall a b, a == b -> fold_left (say i c) l a == fold_left (say i c) l b.
Proof. induction l as [|v l IH]; intros a b E; [exact E|]. cbn. apply IH. unfold say. now destruct (said i c v). Qed.

Lemma repeat_table n k : table n k (zeros n k).
Proof.
  unfold zeros. split; [apply repeat_length|]. intros r I. apply repeat_spec in I. subst r. apply repeat_length.
Qed.
Lemma nth_repeat0 k c : nth c (repeat 0 k) 0 = 0.
Proof. revert c. induction k; destruct c; cbn; auto. Qed.
Lemma zeros_cell n k r c : cell (zeros n k) r c = 0.
Proof.
  unfold cell, zeros. destruct (Nat.lt_ge_cases r n) as [L|L].
  - replace (nth r (repeat (repeat 0 k) n) []) with (repeat 0 k); [apply nth_repeat0|].
    symmetry. apply (repeat_spec n (repeat 0 k)). apply nth_In. now rewrite repeat_length.
  - rewrite (nth_overflow (repeat (repeat 0 k) n)) by now rewrite repeat_length. now destruct c.
Qed.
Lemma map_const_repeat (l : list Q) : map (fun _ => 0) l = repeat 0 (length l).
Proof. induction l; cbn; congruence. Qed.
Lemma zeros_like_table n k t : table n k t -> zeros_like t = zeros n k.
Proof.
  intros [L H]. unfold zeros_like, zeros. rewrite <- L. clear L. induction t as [|r t IH]; [reflexivity|]. cbn. rewrite IH by (intros; apply H; now right).
  rewrite map_const_repeat. now rewrite (H r) by now left.
Qed.
Lemma te_targets_spec alpha e n k ens : table n k ens -> table n k (te_targets alpha e ens) /\
  forall r c, (r < n)%nat -> (c < k)%nat -> cell (te_targets alpha e ens) r c = cell ens r c / bias alpha e.
Proof.
  intros T. split.
  - destruct T as [L H]. split; [unfold te_targets; now rewrite map_length|]. intros x I. apply in_map_iff in I. destruct I as (y & <- & I). rewrite map_length. now apply H.
  - intros r c R C. unfold cell, te_targets. rewrite (nth_map _ _ r []) by (destruct T; lia). rewrite (nth_map _ _ c 0) by (rewrite (table_nth n k ens r T R); exact C). reflexivity.
Qed.

Section TE.
Variable softmax : list Q -> list Q.
Variable ce : list Q -> Z -> Q.
Variable net_l net_w net_s : Z -> list nat -> list (list Q).
Variable y : list Z.
Variables lambda_u alpha : Q.
Variables n_l n_u k : nat.
Variable b : Z.
Variable warmup : Z.
Hypothesis SM : softmax_ok softmax.
Hypothesis K : (0 < k)%nat.
Hypothesis W : (0 <= warmup)%Z.
Hypothesis Y : length y = n_l /\ forall c, In c y -> (0 <= c < Z.of_nat k)%Z.
Hypothesis TL : forall t idx, table (length idx) k (net_l t idx).
Hypothesis TW : forall t idx, table (length idx) k (net_w t idx).
Hypothesis TS : forall t idx, table (length idx) k (net_s t idx).

Let pw (t : Z) (iu : list nat) := map softmax (net_w t iu).
Let ps (t : Z) (iu : list nat) := map softmax (net_s t iu).

Lemma softmax_table n t : table n k t -> table n k (map softmax t).
Proof using SM. intros T. apply table_map; [exact T|]. intros r. apply SM. Qed.

(* the loss of one step against some targets *)
Definition te_loss_spec (target : nat -> nat -> Q) (t : Z) (il iu : list nat) (loss : Q) : Prop :=
  exists sup unsup warm,
    average (map (fun r => ce (nth r (net_l t il) []) (nth (nth r il 0%nat) y 0%Z)) (seq 0 (length il))) sup /\
    average (entries_of (length iu) k (fun r c =>
      square ((cell (pw t iu) r c + cell (ps t iu) r c) / 2 - target (nth r iu 0%nat) c))) unsup /\
    ramp warmup t warm /\ loss == sup + lambda_u * unsup * warm.

Lemma rows_table n (t : list (list Q)) idx : table n k t -> (forall i, In i idx -> (i < n)%nat) -> table (length idx) k (map (fun i => nth i t []) idx).
Proof. intros T H. split; [now rewrite map_length|]. intros r I. apply in_map_iff in I. destruct I as (i & <- & I). apply (table_nth n); [exact T|now apply H]. Qed.
Lemma te_loss_ext (tg tg' : nat -> nat -> Q) t il iu loss : (forall i c, In i iu -> (c < k)%nat -> tg i c == tg' i c) ->
  te_loss_spec tg t il iu loss -> te_loss_spec tg' t il iu loss.
Proof.
  intros H (sup & unsup & warm & A & B & C & D). exists sup, unsup, warm. repeat split; try assumption; try apply A; try apply C.
  - refine (proj1 (average_entries _ _ _ _ _ _ B)). intros r c R Cc. unfold square. rewrite (H _ c) by (try apply nth_In; assumption). reflexivity.
  - refine (proj2 (average_entries _ _ _ _ _ _ B)). intros r c R Cc. unfold square. rewrite (H _ c) by (try apply nth_In; assumption). reflexivity.
Qed.

Lemma te_step_spec e t il iu ens seen tg : (0 <= t)%Z -> proper_batch n_l b il -> proper_batch n_u b iu ->
  table n_u k seen -> table n_u k tg ->
  exists loss seen', te_step softmax ce net_l net_w net_s y lambda_u alpha n_u warmup e t il iu (Some (ens, seen, tg)) = Ok (loss, Some (ens, seen', tg)) /\
    te_loss_spec (cell tg) t il iu loss /\ table n_u k seen' /\
    forall i c, (i < n_u)%nat -> (c < k)%nat -> cell seen' i c == say i c (cell seen i c) (iu, (pw t iu, ps t iu)).
Proof using All.
  intros T0 (NL & _ & NDL & BL) (NU & _ & NDU & BU) TSe TTg.
  assert (LL : (0 < length il)%nat) by (destruct il; [easy|cbn; lia]). assert (LU : (0 < length iu)%nat) by (destruct iu; [easy|cbn; lia]).
  unfold te_step. set (yb := map (fun i => nth i y 0%Z) il).
  assert (YB : forall c, In c yb -> (0 <= c < Z.of_nat k)%Z).
  { intros c I. unfold yb in I. apply in_map_iff in I. destruct I as (i & <- & I). apply (proj2 Y), nth_In. rewrite (proj1 Y). now apply BL. }
  rewrite (check_step_ok (length il) (length iu) k) by (auto using TL, TW, TS). cbn [bind].
  set (prob := average_prob softmax (net_w t iu) (net_s t iu)).
  destruct (zip2_spec (fun a b => (1 # 2) * (a + b)) (length iu) k (pw t iu) (ps t iu)) as [TP EP]; [apply softmax_table, TW|apply softmax_table, TS|].
  fold prob in TP, EP. change (zipw (zipw (fun a b => (1 # 2) * (a + b))) (pw t iu) (ps t iu)) with prob in TP, EP.
  eexists _, _. split; [reflexivity|].
  assert (TR : table (length iu) k (map (fun i => nth i tg []) iu)) by (apply (rows_table n_u); assumption).
  assert (PR : forall i, (i < n_u)%nat -> nth i (put_rows seen iu prob) [] =
    match find (fun r => Nat.eqb (nth r iu 0%nat) i) (seq 0 (length iu)) with Some r => nth r prob [] | None => nth i seen [] end).
  { intros i I. apply put_rows_spec; [exact NDU|apply TP|]. intros j J. rewrite (proj1 TSe). now apply BU. }
  split; [|split].
  - exists (ce_mean ce (net_l t il) yb), (mse prob (map (fun i => nth i tg []) iu)), (warm_factor warmup t).
    split; [|split; [|split]].
    + pose proof (ce_mean_spec ce (length il) (net_l t il) yb LL (proj1 (TL t il)) (map_length _ _)) as A.
      revert A. apply average_ext. apply Forall2_map_same. intros r I. apply in_seq in I. unfold yb. rewrite (nth_map _ _ r 0%nat) by lia. reflexivity.
    + pose proof (mse_spec (length iu) k prob _ LU K TP TR) as A. revert A. apply average_entries. intros r c R C.
      rewrite (EP r c R C). unfold square. assert (E : cell (map (fun i => nth i tg []) iu) r c = cell tg (nth r iu 0%nat) c) by (unfold cell; now rewrite (nth_map _ _ r 0%nat) by exact R).
      rewrite E. field.
    + now apply warm_ramp.
    + reflexivity.
  - split.
    + destruct (put_rows_spec iu prob seen 0 NDU (proj1 TP)) as [L _]; [intros j J; rewrite (proj1 TSe); now apply BU|]. rewrite L. apply TSe.
    + intros x I. destruct (In_nth _ _ [] I) as (i & Hi & <-).
      destruct (put_rows_spec iu prob seen 0 NDU (proj1 TP)) as [L _]; [intros j J; rewrite (proj1 TSe); now apply BU|]. rewrite L, (proj1 TSe) in Hi.
      rewrite (PR i Hi). destruct (find _ _) as [r|] eqn:E; [|apply (table_nth n_u); assumption].
      apply find_some in E. destruct E as [E _]. apply in_seq in E. apply (table_nth (length iu)); [exact TP|lia].
  - intros i c I C. unfold say, said. cbn [fst snd]. unfold cell at 1. rewrite (PR i I). destruct (find _ _) as [r|] eqn:E; [|reflexivity].
    apply find_some in E. destruct E as [E _]. apply in_seq in E. fold (cell prob r c). rewrite (EP r c) by lia. field.
Qed.

Fixpoint views_from (t : Z) (steps : list (list nat * list nat)) : list view :=
  match steps with
  | [] => []
  | (_, iu) :: r => (iu, (pw t iu, ps t iu)) :: views_from (t + 1) r
  end.
Definition good_steps (steps : list (list nat * list nat)) : Prop :=
  forall il iu, In (il, iu) steps -> proper_batch n_l b il /\ proper_batch n_u b iu.

Lemma te_steps_spec e steps : forall t ens seen tg, (0 <= t)%Z -> good_steps steps -> table n_u k seen -> table n_u k tg ->
  exists losses seen', te_steps softmax ce net_l net_w net_s y lambda_u alpha n_u warmup e t steps (Some (ens, seen, tg)) = Ok (losses, Some (ens, seen', tg)) /\
    length losses = length steps /\
    (forall s il iu, nth_error steps s = Some (il, iu) -> te_loss_spec (cell tg) (t + Z.of_nat s) il iu (nth s losses 0)) /\
    table n_u k seen' /\
    forall i c, (i < n_u)%nat -> (c < k)%nat -> cell seen' i c == fold_left (say i c) (views_from t steps) (cell seen i c).
Proof using All.
  induction steps as [|[il iu] steps IH]; intros t ens seen tg T0 GS TSe TTg.
  - exists [], seen. cbn. repeat split; try apply TSe; try easy. intros s; destruct s; discriminate.
  - destruct (GS il iu (or_introl eq_refl)) as [PL PU].
    destruct (te_step_spec e t il iu ens seen tg T0 PL PU TSe TTg) as (loss & seen1 & E & LS & T1 & S1).
    destruct (IH (t + 1)%Z ens seen1 tg ltac:(lia)) as (losses & seen2 & E2 & L2 & LS2 & T2 & S2); [intros a c I; apply GS; now right|assumption|assumption|].
    exists (loss :: losses), seen2. cbn [te_steps]. rewrite E. cbn [bind]. rewrite E2. cbn [bind].
    split; [reflexivity|]. split; [cbn; now rewrite L2|]. split; [|split; [exact T2|]].
    + intros [|s] il' iu' N; cbn [nth_error nth] in *.
      * injection N as <- <-. replace (t + Z.of_nat 0)%Z with t by lia. exact LS.
      * replace (t + Z.of_nat (S s))%Z with (t + 1 + Z.of_nat s)%Z by lia. now apply LS2.
    + intros i c I C. cbn [views_from fold_left]. rewrite (S2 i c I C). apply say_comp. now apply S1.
Qed.

(* the first step of the first epoch creates the tables *)
Lemma te_steps_none e t steps : good_steps steps -> steps <> [] ->
  te_steps softmax ce net_l net_w net_s y lambda_u alpha n_u warmup e t steps None =
  te_steps softmax ce net_l net_w net_s y lambda_u alpha n_u warmup e t steps (Some (zeros n_u k, zeros_like (zeros n_u k), te_targets alpha e (zeros n_u k))).
Proof using All.
  intros GS NE. destruct steps as [|[il iu] steps]; [easy|]. cbn [te_steps]. destruct (GS il iu (or_introl eq_refl)) as [_ PU].
  assert (WP : width (average_prob softmax (net_w t iu) (net_s t iu)) = k).
  { apply (table_width (length iu)); [destruct PU as [P _]; destruct iu; [easy|cbn; lia]|].
    destruct (zip2_spec (fun a b => (1 # 2) * (a + b)) (length iu) k (pw t iu) (ps t iu)) as [TP _]; [apply softmax_table, TW|apply softmax_table, TS|]. exact TP. }
  unfold te_step. rewrite WP. reflexivity.
Qed.

Definition te_ens (past : list (list view)) (ens : list (list Q)) : Prop :=
  table n_u k ens /\ forall i c, (i < n_u)%nat -> (c < k)%nat -> cell ens i c == past_average alpha past i c.

Definition target_of (past : list (list view)) (e : nat) (i c : nat) : Q := past_average alpha past i c / bias alpha e.

Lemma te_epoch_spec e t steps past ens : (0 <= t)%Z -> good_steps steps -> steps <> [] ->
  (match ens with Some m => te_ens past m | None => past = [] end) ->
  exists losses ens', te_epoch softmax ce net_l net_w net_s y lambda_u alpha n_u warmup e t steps ens = Ok (losses, Some ens') /\
    length losses = length steps /\
    (forall s il iu, nth_error steps s = Some (il, iu) -> te_loss_spec (target_of past e) (t + Z.of_nat s) il iu (nth s losses 0)) /\
    te_ens (past ++ [views_from t steps]) ens'.
Proof using All.
  intros T0 GS NE HE. set (m := match ens with Some m => m | None => zeros n_u k end).
  assert (EM : te_ens past m).
  { unfold m. destruct ens; [exact HE|]. subst past. split; [apply repeat_table|]. intros i c I C. rewrite zeros_cell. reflexivity. }
  assert (E0 : te_epoch softmax ce net_l net_w net_s y lambda_u alpha n_u warmup e t steps ens = te_epoch softmax ce net_l net_w net_s y lambda_u alpha n_u warmup e t steps (Some m)).
  { unfold m. destruct ens; [reflexivity|]. unfold te_epoch. cbn [option_map]. now rewrite te_steps_none. }
  rewrite E0. clear E0 HE. destruct EM as [TM EM]. unfold te_epoch. cbn [option_map]. rewrite (zeros_like_table n_u k m TM).
  destruct (te_targets_spec alpha e n_u k m TM) as [TT ET].
  destruct (te_steps_spec e steps t m (zeros n_u k) (te_targets alpha e m) T0 GS (repeat_table n_u k) TT) as (losses & seen & E & L & LS & TSe & SE).
  rewrite E. cbn [bind]. eexists losses, _. split; [reflexivity|]. split; [exact L|]. split.
  - intros s il iu N. refine (te_loss_ext _ _ _ _ _ _ _ (LS s il iu N)).
    intros i c I C. destruct (GS il iu (nth_error_In _ _ N)) as [_ (_ & _ & _ & BU)]. rewrite (ET i c (BU i I) C). unfold target_of. now rewrite (EM i c (BU i I) C).
  - destruct (zip2_spec (fun a b => alpha * a + (1 - alpha) * b) n_u k m seen TM TSe) as [TZ EZ]. split; [exact TZ|].
    intros i c I C. rewrite (EZ i c I C). unfold past_average. rewrite map_app. cbn [map]. rewrite running_app, running_one.
    rewrite (EM i c I C), (SE i c I C). rewrite zeros_cell. reflexivity.
Qed.

Fixpoint past_views (t : Z) (epochs : list (list (list nat * list nat))) : list (list view) :=
  match epochs with [] => [] | st :: r => views_from t st :: past_views (t + lenZ st) r end.

Lemma te_epochs_spec epochs : forall e t past ens, (0 <= t)%Z -> (forall st, In st epochs -> good_steps st /\ st <> []) ->
  (match ens with Some m => te_ens past m | None => past = [] end) ->
  exists losses, te_epochs softmax ce net_l net_w net_s y lambda_u alpha n_u warmup e t epochs ens = Ok losses /\
    map (@length Q) losses = map (@length _) epochs /\
    forall j s il iu, (j < length epochs)%nat -> nth_error (nth j epochs []) s = Some (il, iu) ->
      te_loss_spec (target_of (past ++ past_views t (firstn j epochs)) (e + j)) (t + lenZ (concat (firstn j epochs)) + Z.of_nat s) il iu (nth s (nth j losses []) 0).
Proof using All.
  induction epochs as [|st epochs IH]; intros e t past ens T0 GS HE.
  - exists []. split; [reflexivity|]. split; [reflexivity|]. cbn. lia.
  - destruct (GS st (or_introl eq_refl)) as [G1 G2].
    destruct (te_epoch_spec e t st past ens T0 G1 G2 HE) as (losses & ens' & E & L & LS & HE').
    destruct (IH (S e) (t + lenZ st)%Z (past ++ [views_from t st]) (Some ens')) as (more & E2 & L2 & LS2); [unfold lenZ; lia|intros; apply GS; now right|exact HE'|].
    exists (losses :: more). cbn [te_epochs]. rewrite E. cbn [bind]. rewrite E2. cbn [bind]. split; [reflexivity|]. split; [cbn; congruence|].
    intros [|j] s il iu J N; cbn [nth firstn concat past_views] in *.
    + rewrite app_nil_r, Nat.add_0_r. replace (t + lenZ [] + Z.of_nat s)%Z with (t + Z.of_nat s)%Z by (unfold lenZ; cbn; lia). now apply LS.
    + cbn [length] in J. specialize (LS2 j s il iu ltac:(lia) N). rewrite <- app_assoc in LS2. cbn [app] in LS2.
      rewrite lenZ_app. replace (e + S j)%nat with (S e + j)%nat by lia.
      replace (t + (lenZ st + lenZ (concat (firstn j epochs))) + Z.of_nat s)%Z with (t + lenZ st + lenZ (concat (firstn j epochs)) + Z.of_nat s)%Z by lia.
      exact LS2.
Qed.

(* the views, written with the time of each step *)
Lemma views_from_seq steps : forall t, views_from t steps =
  map (fun s => let iu := snd (nth s steps ([], [])) in (iu, (pw (t + Z.of_nat s) iu, ps (t + Z.of_nat s) iu))) (seq 0 (length steps)).
Proof using Type.
  clear -pw ps.
  induction steps as [|[il iu] steps IH]; intros t; [reflexivity|]. cbn [views_from length seq map nth snd]. rewrite Z.add_0_r. f_equal.
  rewrite IH, <- seq_shift, map_map. apply map_ext. intros s. cbn [nth]. replace (t + 1 + Z.of_nat s)%Z with (t + Z.of_nat (S s))%Z by lia. reflexivity.
Qed.
Lemma past_views_seq m epochs : (forall st, In st epochs -> lenZ st = m) -> forall e0, past_views (Z.of_nat e0 * m) epochs =
  map (fun e => map (fun s => let iu := snd (nth s (nth e epochs []) ([], [])) in (iu, (pw (Z.of_nat (e0 + e) * m + Z.of_nat s) iu, ps (Z.of_nat (e0 + e) * m + Z.of_nat s) iu))) (seq 0 (length (nth e epochs [])))) (seq 0 (length epochs)).
Proof using Type.
  clear -pw ps.
  induction epochs as [|st epochs IH]; intros H e0; [reflexivity|]. cbn [past_views length seq map nth]. f_equal.
  - rewrite views_from_seq, Nat.add_0_r. reflexivity.
  - rewrite (H st) by now left. replace (Z.of_nat e0 * m + m)%Z with (Z.of_nat (S e0) * m)%Z by lia.
    rewrite IH by (intros; apply H; now right). rewrite <- seq_shift, map_map. apply map_ext. intros e. cbn [nth].
    replace (e0 + S e)%nat with (S e0 + e)%nat by lia. reflexivity.
Qed.
End TE.

Lemma check_numbers_spec l f : match check_numbers l f with
  | Ok _ => 0 <= l /\ 0 <= f
  | Err e => e = InductiveValidationError /\ (l < 0 \/ f < 0)
  end.
Proof.
  unfold check_numbers. destruct (Qle_bool 0 l) eqn:E1; cbn [negb].
  - destruct (Qle_bool 0 f) eqn:E2; cbn [negb]; apply Qle_bool_iff in E1.
    + apply Qle_bool_iff in E2. now split.
    + split; [reflexivity|right]. apply Qnot_le_lt. intros H. apply Qle_bool_iff in H. congruence.
  - split; [reflexivity|left]. apply Qnot_le_lt. intros H. apply Qle_bool_iff in H. congruence.
Qed.
Lemma Qle_bool_false a b : Qle_bool a b = false -> b < a.
Proof. intros E. apply Qnot_le_lt. intros H. apply Qle_bool_iff in H. congruence. Qed.

Lemma concat_len {A} m (l : list (list A)) : (forall x, In x l -> lenZ x = m) -> lenZ (concat l) = (lenZ l * m)%Z.
Proof.
  induction l as [|x l IH]; intros H; [reflexivity|]. cbn [concat]. rewrite lenZ_app, IH by (intros; apply H; now right).
  rewrite (H x) by now left. unfold lenZ. cbn [length]. lia.
Qed.
Lemma In_firstn_nth {A} (l : list A) j x : In x (firstn j l) -> In x l.
Proof. apply In_firstn. Qed.

Lemma te_fit_spec {St} (G : Gen St) softmax ce net_l net_w net_s y lambda_u fraction alpha n_l n_u n_s b max_epochs sl su k :
  gen_ok G -> softmax_ok softmax -> (0 < k)%nat -> length y = n_l -> (forall c, In c y -> (0 <= c < Z.of_nat k)%Z) ->
  (forall t idx, table (length idx) k (net_l t idx)) -> (forall t idx, table (length idx) k (net_w t idx)) -> (forall t idx, table (length idx) k (net_s t idx)) ->
  match te_fit G softmax ce net_l net_w net_s y lambda_u fraction alpha n_l n_u n_s b max_epochs sl su with
  | Ok losses => exists epochs m warmup,
      fit_batches G n_l n_u b max_epochs sl su = Ok epochs /\ (0 < m)%Z /\
      (forall st, In st epochs -> lenZ st = m /\ good_steps n_l n_u b st /\ forall i, (i < n_u)%nat -> (1 <= visits i (map snd st))%Z) /\ ramp_length fraction (max_epochs * m) warmup /\
      0 <= alpha < 1 /\
      map (@length Q) losses = map (@length _) epochs /\
      forall e s il iu, (e < length epochs)%nat -> nth_error (nth e epochs []) s = Some (il, iu) ->
        te_loss_spec softmax ce net_l net_w net_s y lambda_u k warmup
          (fun i c => past_average alpha (map (epoch_views m (fun t iu => map softmax (net_w t iu)) (fun t iu => map softmax (net_s t iu)) epochs) (seq 0 e)) i c / bias alpha e)
          (time m e s) il iu (nth s (nth e losses []) 0)
  | Err e => e = InductiveValidationError /\ (n_u <> n_s \/ n_l = 0%nat \/ n_u = 0%nat \/ (b <= 0)%Z \/ (max_epochs <= 0)%Z \/ lambda_u < 0 \/ fraction < 0 \/ alpha < 0 \/ 1 <= alpha)
  end.
Proof.
  intros GO SM K LY Y TL TW TS. unfold te_fit. destruct (Nat.eqb_spec n_u n_s) as [->|NE]; cbn [negb]; [|split; [reflexivity|now left]].
  pose proof (fit_batches_spec G n_l n_s b max_epochs sl su GO) as FB.
  destruct (fit_batches G n_l n_s b max_epochs sl su) as [epochs|ex] eqn:EF; cbn [bind]; [|destruct FB as [-> N]; split; [reflexivity|lia]].
  destruct FB as (NL & NU & B & ME & LE & k_l & k_u & JL & JU & FB).
  pose proof (check_numbers_spec lambda_u fraction) as CN. destruct (check_numbers lambda_u fraction) as [[]|ex]; cbn [bind]; [|destruct CN as [-> CN]; split; [reflexivity|tauto]].
  destruct (Qle_bool 0 alpha) eqn:EA; cbn [negb andb]; [|apply Qle_bool_false in EA; split; [reflexivity|tauto]].
  destruct (Qle_bool 1 alpha) eqn:EB; cbn [negb andb]; [apply Qle_bool_iff in EB; split; [reflexivity|tauto]|].
  apply Qle_bool_iff in EA. apply Qle_bool_false in EB.
  set (m := steps_per_epoch (Z.of_nat n_l) (Z.of_nat n_s) b).
  assert (EM : Z.max k_l k_u = m).
  { unfold m, steps_per_epoch. rewrite (just_enough_unique _ _ _ _ B JL (num_batches_enough (Z.of_nat n_l) b ltac:(lia) B)).
    now rewrite (just_enough_unique _ _ _ _ B JU (num_batches_enough (Z.of_nat n_s) b ltac:(lia) B)). }
  rewrite EM in FB. assert (MP : (0 < m)%Z) by (rewrite <- EM; unfold just_enough in *; nia).
  assert (KU : (0 < k_u)%Z) by (unfold just_enough in *; nia).
  assert (FG : forall st, In st epochs -> lenZ st = m /\ good_steps n_l n_s b st /\ forall i, (i < n_s)%nat -> (1 <= visits i (map snd st))%Z).
  { intros st I. rewrite Forall_forall in FB. destruct (FB st I) as (L & F1 & _ & F2 & EU). split; [exact L|]. rewrite Forall_forall in F1, F2. split.
    - intros il iu J. split; [apply F1; now apply (in_map fst) in J|apply F2; now apply (in_map snd) in J].
    - intros i Hi. specialize (EU i Hi). assert (1 <= m / k_u)%Z by (apply Z.div_le_lower_bound; lia). lia. }
  pose proof (warmup_nonneg fraction (max_epochs * m)) as WN.
  destruct (te_epochs_spec softmax ce net_l net_w net_s y lambda_u alpha n_l n_s k b (warmup_steps fraction (max_epochs * m)) SM K WN (conj LY Y) TL TW TS epochs 0 0 [] None) as (losses & E & L & LS);
    [lia|intros st I; split; [now apply FG|intros ->; destruct (FG _ I) as [X _]; unfold lenZ in X; cbn in X; lia]|reflexivity|].
  rewrite E. exists epochs, m, (warmup_steps fraction (max_epochs * m)). split; [reflexivity|]. split; [exact MP|]. split; [exact FG|].
  split; [apply warmup_spec|]. split; [now split|]. split; [exact L|].
  intros e s il iu HE N. specialize (LS e s il iu HE N). cbn [app Nat.add] in LS. unfold target_of in LS.
  assert (LF : forall st, In st (firstn e epochs) -> lenZ st = m) by (intros st I; apply FG; now apply In_firstn_nth in I).
  rewrite (concat_len m _ LF) in LS. replace (lenZ (firstn e epochs)) with (Z.of_nat e) in LS by (unfold lenZ; rewrite firstn_length; lia).
  pose proof (past_views_seq softmax net_w net_s m (firstn e epochs) LF 0) as PV. cbn [Z.of_nat Z.mul Nat.add] in PV. rewrite PV in LS.
  rewrite firstn_length_le in LS by lia. rewrite Z.add_0_l in LS. unfold time.
  assert (EQ : map (epoch_views m (fun t iu => map softmax (net_w t iu)) (fun t iu => map softmax (net_s t iu)) epochs) (seq 0 e) =
    map (fun e0 => map (fun s0 => let iu0 := snd (nth s0 (nth e0 (firstn e epochs) []) ([], [])) in
       (iu0, (map softmax (net_w (Z.of_nat e0 * m + Z.of_nat s0)%Z iu0), map softmax (net_s (Z.of_nat e0 * m + Z.of_nat s0)%Z iu0)))) (seq 0 (length (nth e0 (firstn e epochs) [])))) (seq 0 e)).
  { apply map_ext_in. intros e0 I. apply in_seq in I. unfold epoch_views, time. rewrite nth_firstn_lt by lia. reflexivity. }
  rewrite EQ. exact LS.
Qed.

(* ------------------------------------------------------------------ the targets' total *)
Lemma Qpow_S alpha (e : nat) : alpha ^ (Z.of_nat e + 1) == alpha * alpha ^ Z.of_nat e.
Proof. rewrite Qpower_plus' by lia. change (alpha ^ 1) with alpha. ring. Qed.
Lemma Qpow_range alpha e : 0 <= alpha <= 1 -> 0 <= alpha ^ Z.of_nat e <= 1.
Proof.
  intros A. induction e as [|e IH]; [cbn; lra|]. replace (Z.of_nat (S e)) with (Z.of_nat e + 1)%Z by lia. rewrite Qpow_S. nra.
Qed.

Lemma past_sum alpha k (f : nat -> nat -> Q) e : 
  (forall j, (j < e)%nat -> Qsum (map (f j) (seq 0 k)) == 1) ->
  Qsum (map (fun c => running (fun x => x) alpha 0 (map (fun j => f j c) (seq 0 e))) (seq 0 k)) == 1 - alpha ^ Z.of_nat e.
Proof.
  induction e as [|e IH]; intros H.
  - cbn. rewrite Qsum_zero; [ring|]. intros x I. reflexivity.
  - rewrite (Qsum_ext _ (fun c => alpha * running (fun x => x) alpha 0 (map (fun j => f j c) (seq 0 e)) + (1 - alpha) * f e c)).
    + rewrite Qsum_plus, !Qsum_scale. rewrite IH by (intros; apply H; lia). rewrite (H e) by lia.
      replace (Z.of_nat (S e)) with (Z.of_nat e + 1)%Z by lia. rewrite Qpow_S. ring.
    + intros c _. rewrite seq_S, map_app. cbn [map]. rewrite running_app, running_one. reflexivity.
Qed.

(* a view whose probabilities are distributions *)
Definition fair_view (k : nat) (v : view) : Prop :=
  table (length (fst v)) k (fst (snd v)) /\ table (length (fst v)) k (snd (snd v)) /\
  forall r, (r < length (fst v))%nat -> Qsum (nth r (fst (snd v)) []) == 1 /\ Qsum (nth r (snd (snd v)) []) == 1.
Lemma said_in i k v : fair_view k v -> In i (fst v) -> exists g : nat -> Q, (forall c, said i c v = Some (g c)) /\ Qsum (map g (seq 0 k)) == 1.
Proof.
  intros (T1 & T2 & S) I. unfold said. destruct (find _ _) as [r|] eqn:E.
  - apply find_some in E. destruct E as [E _]. apply in_seq in E. destruct (S r ltac:(lia)) as [S1 S2].
    exists (fun c => (cell (fst (snd v)) r c + cell (snd (snd v)) r c) / 2). split; [reflexivity|].
    rewrite (Qsum_ext _ (fun c => (1 # 2) * (cell (fst (snd v)) r c + cell (snd (snd v)) r c))) by (intros; field).
    rewrite Qsum_scale, Qsum_plus. unfold cell.
    rewrite <- (row_entries k (nth r (fst (snd v)) [])) by (apply (table_nth (length (fst v))); [assumption|lia]).
    rewrite <- (row_entries k (nth r (snd (snd v)) [])) by (apply (table_nth (length (fst v))); [assumption|lia]). rewrite S1, S2. reflexivity.
  - exfalso. destruct (In_nth _ _ 0%nat I) as (r & R & Er). pose proof (find_none _ _ E r ltac:(apply in_seq; lia)) as X. cbn in X. apply Nat.eqb_neq in X. now apply X.
Qed.
Lemma said_none i c v : ~ In i (fst v) -> said i c v = None.
Proof.
  intros N. unfold said. destruct (find _ _) as [r|] eqn:E; [|reflexivity]. exfalso. apply N. apply find_some in E. destruct E as [E1 E2].
  apply in_seq in E1. apply Nat.eqb_eq in E2. rewrite <- E2. apply nth_In. lia.
Qed.
Lemma say_sum i k views : Forall (fair_view k) views -> forall a : nat -> Q, (Qsum (map a (seq 0 k)) == 1 \/ exists v, In v views /\ In i (fst v)) ->
  Qsum (map (fun c => fold_left (say i c) views (a c)) (seq 0 k)) == 1.
Proof.
  induction 1 as [|v views F _ IH]; intros a H.
  - destruct H as [H|(v & [] & _)]. exact H.
  - cbn [fold_left]. apply (IH (fun c => say i c (a c) v)). destruct (in_dec Nat.eq_dec i (fst v)) as [I|I].
    + left. destruct (said_in i k v F I) as (g & E & S). rewrite <- S. apply Qsum_ext. intros c _. unfold say. now rewrite E.
    + destruct H as [H|(u & [<-|U] & Iu)]; [left|now elim I|right; now exists u].
      rewrite <- H. apply Qsum_ext. intros c _. unfold say. now rewrite said_none.
Qed.
Lemma last_said_sum i k views : Forall (fair_view k) views -> (exists v, In v views /\ In i (fst v)) -> Qsum (map (fun c => last_said i c views) (seq 0 k)) == 1.
Proof. intros F H. apply (say_sum i k views F (fun _ => 0)). now right. Qed.
Lemma said_nonneg i c v x : (forall r c, 0 <= cell (fst (snd v)) r c /\ 0 <= cell (snd (snd v)) r c) -> said i c v = Some x -> 0 <= x.
Proof.
  intros H. unfold said. destruct (find _ _) as [r|]; [|discriminate]. intros E. injection E as <-. destruct (H r c). 
  assert (0 <= (1#2) * (cell (fst (snd v)) r c + cell (snd (snd v)) r c)) by lra. setoid_replace ((cell (fst (snd v)) r c + cell (snd (snd v)) r c) / 2) with ((1#2) * (cell (fst (snd v)) r c + cell (snd (snd v)) r c)) by field. lra.
Qed.
Lemma visits_In i (l : list (list nat)) : (1 <= visits i l)%Z -> exists x, In x l /\ In i x.
Proof.
  unfold visits. intros H. assert (I : In i (concat l)) by (apply (count_occ_In Nat.eq_dec); lia). apply in_concat in I. destruct I as (x & A & B). now exists x.
Qed.
(* every labelled row is used in some step of a fit *)
Lemma row_is_used {St} (G : Gen St) n_l n_u b max_epochs sl su epochs i : gen_ok G -> fit_batches G n_l n_u b max_epochs sl su = Ok epochs -> (i < n_l)%nat ->
  exists il iu, In (il, iu) (concat epochs) /\ In i il.
Proof.
  intros GO E I. pose proof (fit_batches_spec G n_l n_u b max_epochs sl su GO) as FB. rewrite E in FB. destruct FB as (NL & NU & B & ME & LE & k_l & k_u & JL & JU & FB).
  destruct epochs as [|e epochs]; [unfold lenZ in LE; cbn in LE; lia|]. apply Forall_inv in FB. destruct FB as (_ & _ & EU & _). specialize (EU i I).
  assert (KP : (0 < k_l)%Z) by (unfold just_enough in JL; nia).
  assert (1 <= Z.max k_l k_u / k_l)%Z by (apply Z.div_le_lower_bound; lia). destruct (visits_In i (map fst e) ltac:(lia)) as (il & J1 & J2).
  apply in_map_iff in J1. destruct J1 as ([il' iu] & Q1 & Q2). cbn in Q1. subst il'. exists il, iu. split; [|exact J2]. cbn [concat]. apply in_or_app. now left.
Qed.

(* ------------------------------------------------------------------ Mean Teacher *)
Lemma same_params_length a b : same_params a b -> length a = length b.
Proof. induction 1; cbn; congruence. Qed.
Lemma update_teacher_spec d s t : same_params s t -> same_params s (update_teacher d s t) /\
  forall p j, param p j (update_teacher d s t) == d * param p j t + (1 - d) * param p j s.
Proof.
  unfold update_teacher. induction 1 as [|a b s t (H1 & H2 & H3) _ [IH1 IH2]].
  - split; [constructor|]. intros [|p] [|j]; cbn; ring.
  - unfold zipw in *. cbn [combine map fst snd]. split.
    + constructor; [|exact IH1]. cbn. rewrite map_length, combine_length. repeat split; try assumption. lia.
    + intros [|p] j; [|apply IH2]. unfold param. cbn [nth tdata].
      revert H3. generalize (tdata a) (tdata b). clear. intros l l' L. revert l' j L. induction l as [|x l IH]; intros [|y l'] j L; try discriminate L.
      * destruct j; cbn; ring.
      * destruct j as [|j]; [cbn; ring|]. cbn [combine map nth fst snd]. apply IH. cbn in L. lia.
Qed.
Lemma same_params_trans a b c : same_params a b -> same_params b c -> same_params a c.
Proof.
  intros H. revert c. induction H as [|x y a b H _ IH]; intros c H2; [exact H2|]. inversion H2; subst. constructor; [|now apply IH].
  destruct H as (A1 & A2 & A3), H3 as (B1 & B2 & B3). repeat split; congruence.
Qed.
Lemma same_params_sym a b : same_params a b -> same_params b a.
Proof. induction 1 as [|x y a b (A & B & C)]; constructor; [now repeat split|assumption]. Qed.
Lemma same_params_refl a : same_params a a.
Proof. induction a; constructor; [now repeat split|assumption]. Qed.

Section MT.
Variable softmax : list Q -> list Q.
Variable ce : list Q -> Z -> Q.
Variable net_l net_w net_s : Z -> list tensor -> list nat -> list (list Q).
Variable student : Z -> list tensor.
Variable y : list Z.
Variables lambda_u decay : Q.
Variables n_l n_u n_s k : nat.
Variable b warmup : Z.
Hypothesis SM : softmax_ok softmax.
Hypothesis K : (0 < k)%nat.
Hypothesis W : (0 <= warmup)%Z.
Hypothesis Y : length y = n_l /\ forall c, In c y -> (0 <= c < Z.of_nat k)%Z.
Hypothesis TL : forall t p idx, table (length idx) k (net_l t p idx).
Hypothesis TW : forall t p idx, table (length idx) k (net_w t p idx).
Hypothesis TS : forall t p idx, table (length idx) k (net_s t p idx).
Hypothesis SP : forall t, same_params (student t) (student 0%Z).

(* the teacher when t steps have been made *)
Fixpoint teacher_at (start : list tensor) (t : nat) : list tensor :=
  match t with O => start | S u => update_teacher decay (student (Z.of_nat (S u))) (teacher_at start u) end.

Lemma teacher_spec t : same_params (student 0%Z) (teacher_at (student 0%Z) t) /\
  forall p j, param p j (teacher_at (student 0%Z) t) == running (fun x => x) decay (param p j (student 0%Z)) (map (fun u => param p j (student (Z.of_nat u))) (seq 1 t)).
Proof using SP.
  clear -SP. induction t as [|t [IH1 IH2]]; [split; [apply same_params_refl|reflexivity]|].
  destruct (update_teacher_spec decay (student (Z.of_nat (S t))) (teacher_at (student 0%Z) t)) as [A B];
    [eapply same_params_trans; [apply SP|exact IH1]|].
  split; [eapply same_params_trans; [apply same_params_sym, SP|exact A]|].
  intros p j. cbn [teacher_at]. rewrite B, IH2. rewrite seq_S, map_app, running_app. cbn [map]. rewrite running_one. reflexivity.
Qed.

Definition mt_loss_spec (t : Z) (teacher : list tensor) (il iu : list nat) (loss : Q) : Prop :=
  exists sup unsup warm,
    average (map (fun r => ce (nth r (net_l t (student t) il) []) (nth (nth r il 0%nat) y 0%Z)) (seq 0 (length il))) sup /\
    average (entries_of (length iu) k (fun r c =>
      square (cell (map softmax (net_s t (student t) iu)) r c - cell (map softmax (net_w t teacher iu)) r c))) unsup /\
    ramp warmup t warm /\ loss == sup + lambda_u * unsup * warm.

Lemma mt_steps_spec steps : good_steps n_l n_u b steps -> (forall il iu i, In (il, iu) steps -> In i iu -> (i < n_s)%nat) ->
  forall start t, exists losses,
    mt_steps softmax ce net_l net_w net_s student y lambda_u decay n_s warmup (Z.of_nat t) steps (teacher_at start t) = Ok (losses, teacher_at start (t + length steps)) /\
    length losses = length steps /\
    forall s il iu, nth_error steps s = Some (il, iu) -> mt_loss_spec (Z.of_nat (t + s)) (teacher_at start (t + s)) il iu (nth s losses 0).
Proof using All.
  intros GS IN start. induction steps as [|[il iu] steps IH]; intros t.
  - exists []. cbn. rewrite Nat.add_0_r. split; [reflexivity|]. split; [reflexivity|]. intros [|s]; discriminate.
  - destruct (GS il iu (or_introl eq_refl)) as [(NL & _ & NDL & BL) (NU & _ & NDU & BU)].
    destruct IH with (t := S t) as (losses & E & L & LS); [intros a c I; apply GS; now right|intros a c i I; apply (IN a c i); now right|].
    assert (LL : (0 < length il)%nat) by (destruct il; [easy|cbn; lia]). assert (LU : (0 < length iu)%nat) by (destruct iu; [easy|cbn; lia]).
    set (yb := map (fun i => nth i y 0%Z) il).
    assert (YB : forall c, In c yb -> (0 <= c < Z.of_nat k)%Z).
    { intros c I. unfold yb in I. apply in_map_iff in I. destruct I as (i & <- & I). apply (proj2 Y), nth_In. rewrite (proj1 Y). now apply BL. }
    cbn [mt_steps]. unfold mt_step. replace (existsb _ iu) with false.
    2:{ symmetry. apply Bool.not_true_iff_false. intros X. apply existsb_exists in X. destruct X as (i & I & X). specialize (IN il iu i (or_introl eq_refl) I). lia. }
    fold yb. rewrite (check_step_ok (length il) (length iu) k) by (auto using TL, TW, TS). cbn [bind].
    replace (Z.of_nat t + 1)%Z with (Z.of_nat (S t)) by lia.
    change (update_teacher decay (student (Z.of_nat (S t))) (teacher_at start t)) with (teacher_at start (S t)). rewrite E. cbn [bind].
    eexists. split; [cbn [length]; rewrite Nat.add_succ_r; reflexivity|]. split; [cbn; now rewrite L|].
    intros [|s] il' iu' N; cbn [nth_error nth] in *.
    + injection N as <- <-. rewrite Nat.add_0_r. eexists _, _, _. split; [|split; [|split; [|reflexivity]]].
      * pose proof (ce_mean_spec ce (length il) (net_l (Z.of_nat t) (student (Z.of_nat t)) il) yb LL (proj1 (TL _ _ il)) (map_length _ _)) as A.
        revert A. apply average_ext. apply Forall2_map_same. intros r I. apply in_seq in I. unfold yb. rewrite (nth_map _ _ r 0%nat) by lia. reflexivity.
      * apply mse_spec; try assumption; apply (softmax_table softmax k SM); auto.
      * apply warm_ramp; lia.
    + rewrite Nat.add_succ_r. now apply LS.
Qed.
(* a row of X_u_w without a counterpart in X_u_s ends the fit *)
Lemma mt_steps_index steps : good_steps n_l n_u b steps -> (exists il iu i, In (il, iu) steps /\ In i iu /\ (n_s <= i)%nat) ->
  forall t teacher, mt_steps softmax ce net_l net_w net_s student y lambda_u decay n_s warmup t steps teacher = Err IndexError.
Proof using All.
  induction steps as [|[il iu] steps IH]; intros GS (a & c & i & I & J & Hi); [destruct I|]. intros t teacher.
  cbn [mt_steps]. unfold mt_step. destruct (existsb (fun i => Nat.leb n_s i) iu) eqn:E; [reflexivity|].
  destruct (GS il iu (or_introl eq_refl)) as [(NL & _ & NDL & BL) (NU & _ & NDU & BU)].
  assert (LL : (0 < length il)%nat) by (destruct il; [easy|cbn; lia]). assert (LU : (0 < length iu)%nat) by (destruct iu; [easy|cbn; lia]).
  set (yb := map (fun i => nth i y 0%Z) il).
  assert (YB : forall c, In c yb -> (0 <= c < Z.of_nat k)%Z).
  { intros q Iq. unfold yb in Iq. apply in_map_iff in Iq. destruct Iq as (z & <- & Iq). apply (proj2 Y), nth_In. rewrite (proj1 Y). now apply BL. }
  rewrite (check_step_ok (length il) (length iu) k) by (auto using TL, TW, TS). cbn [bind].
  rewrite IH; [reflexivity|intros q r Iq; apply GS; now right|].
  destruct I as [X|I]; [|now exists a, c, i]. injection X as -> ->. exfalso. apply Bool.not_true_iff_false in E. apply E. apply existsb_exists. exists i. split; [exact J|lia].
Qed.
End MT.

Lemma check_params_spec s t : match check_params s t with Ok _ => Forall2 (fun a b => tshape a = tshape b /\ tdevice a = tdevice b) s t
  | Err e => e = InductiveValidationError /\ ~ Forall2 (fun a b => tshape a = tshape b /\ tdevice a = tdevice b) s t end.
Proof.
  revert t. induction s as [|a s IH]; intros [|c t]; cbn [check_params]; try (split; [reflexivity|intros H; inversion H]); [constructor|].
  destruct (list_eq_dec Z.eq_dec (tshape a) (tshape c)) as [E|E].
  - destruct (Z.eqb_spec (tdevice a) (tdevice c)) as [D|D].
    + specialize (IH t). destruct (check_params s t); [constructor; [now split|assumption]|]. destruct IH as [-> IH]. split; [reflexivity|]. intros H. inversion H. now apply IH.
    + split; [reflexivity|]. intros H. inversion H; subst. now apply D.
  - split; [reflexivity|]. intros H. inversion H; subst. now apply E.
Qed.
Lemma check_teacher_spec same s t : match check_teacher same s t with Ok _ => same = false /\ Forall2 (fun a b => tshape a = tshape b /\ tdevice a = tdevice b) s t
  | Err e => e = InductiveValidationError /\ (same = true \/ ~ Forall2 (fun a b => tshape a = tshape b /\ tdevice a = tdevice b) s t) end.
Proof.
  unfold check_teacher. destruct same; [split; [reflexivity|now left]|].
  destruct (Nat.eqb_spec (length s) (length t)) as [L|L]; cbn [negb].
  - pose proof (check_params_spec s t) as H. destruct (check_params s t); [now split|]. destruct H as [-> H]. split; [reflexivity|now right].
  - split; [reflexivity|]. right. intros H. apply L. clear L. induction H; cbn; congruence.
Qed.

Lemma mt_fit_spec {St} (G : Gen St) softmax ce net_l net_w net_s student teacher0 same y lambda_u fraction decay n_l n_u n_s b max_epochs sl su k :
  gen_ok G -> softmax_ok softmax -> (0 < k)%nat -> length y = n_l -> (forall c, In c y -> (0 <= c < Z.of_nat k)%Z) ->
  (forall t p idx, table (length idx) k (net_l t p idx)) -> (forall t p idx, table (length idx) k (net_w t p idx)) -> (forall t p idx, table (length idx) k (net_s t p idx)) ->
  (forall t, same_params (student t) (student 0%Z)) ->
  match mt_fit G softmax ce net_l net_w net_s student teacher0 same y lambda_u fraction decay n_l n_u n_s b max_epochs sl su with
  | Ok (losses, final, teacher) => exists epochs m warmup,
      fit_batches G n_l n_u b max_epochs sl su = Ok epochs /\ (n_u <= n_s)%nat /\ 0 <= decay <= 1 /\
      lenZ (concat epochs) = (max_epochs * m)%Z /\ ramp_length fraction (max_epochs * m) warmup /\
      length losses = length (concat epochs) /\
      final = student (lenZ (concat epochs)) /\ teacher = teacher_at student decay (student 0%Z) (length (concat epochs)) /\
      forall t il iu, nth_error (concat epochs) t = Some (il, iu) ->
        mt_loss_spec softmax ce net_l net_w net_s student y lambda_u k warmup (Z.of_nat t) (teacher_at student decay (student 0%Z) t) il iu (nth t losses 0)
  | Err InductiveValidationError =>
      n_s = 0%nat \/ n_l = 0%nat \/ n_u = 0%nat \/ (b <= 0)%Z \/ (max_epochs <= 0)%Z \/ lambda_u < 0 \/ fraction < 0 \/ decay < 0 \/ 1 < decay \/
      same = true \/ ~ Forall2 (fun a b => tshape a = tshape b /\ tdevice a = tdevice b) (student 0%Z) teacher0
  | Err e => e = IndexError /\ (n_s < n_u)%nat
  end.
Proof.
  intros GO SM K LY Y TL TW TS SP. unfold mt_fit. destruct (Nat.eqb_spec n_s 0) as [E0|E0]; [now left|].
  pose proof (check_teacher_spec same (student 0%Z) teacher0) as CT. destruct (check_teacher same (student 0%Z) teacher0) as [[]|ex]; cbn [bind]; [|destruct CT as [-> CT]; tauto].
  pose proof (fit_batches_spec G n_l n_u b max_epochs sl su GO) as FB.
  destruct (fit_batches G n_l n_u b max_epochs sl su) as [epochs|ex] eqn:EF; cbn [bind]; [|destruct FB as [-> N]; lia].
  destruct FB as (NL & NU & B & ME & LE & k_l & k_u & JL & JU & FB).
  pose proof (check_numbers_spec lambda_u fraction) as CN. destruct (check_numbers lambda_u fraction) as [[]|ex]; cbn [bind]; [|destruct CN as [-> CN]; tauto].
  destruct (Qle_bool 0 decay) eqn:EA; cbn [negb andb]; [|apply Qle_bool_false in EA; tauto].
  destruct (Qle_bool decay 1) eqn:EB; cbn [negb andb]; [|apply Qle_bool_false in EB; tauto].
  apply Qle_bool_iff in EA. apply Qle_bool_iff in EB.
  set (m := steps_per_epoch (Z.of_nat n_l) (Z.of_nat n_u) b).
  assert (EM : Z.max k_l k_u = m).
  { unfold m, steps_per_epoch. rewrite (just_enough_unique _ _ _ _ B JL (num_batches_enough (Z.of_nat n_l) b ltac:(lia) B)).
    now rewrite (just_enough_unique _ _ _ _ B JU (num_batches_enough (Z.of_nat n_u) b ltac:(lia) B)). }
  rewrite EM in FB. assert (MP : (0 < m)%Z) by (rewrite <- EM; unfold just_enough in *; nia).
  assert (KU : (0 < k_u)%Z) by (unfold just_enough in *; nia). rewrite Forall_forall in FB.
  assert (GS : good_steps n_l n_u b (concat epochs)).
  { intros il iu I. apply in_concat in I. destruct I as (st & I & J). destruct (FB st I) as (_ & F1 & _ & F2 & _). rewrite Forall_forall in F1, F2.
    split; [apply F1; now apply (in_map fst) in J|apply F2; now apply (in_map snd) in J]. }
  assert (LC : lenZ (concat epochs) = (max_epochs * m)%Z) by (rewrite (concat_len m); [now rewrite LE|intros x I; now apply FB]).
  pose proof (warmup_nonneg fraction (max_epochs * m)) as WN.
  destruct (Nat.lt_ge_cases n_s n_u) as [LT|GE].
  - rewrite (mt_steps_index softmax ce net_l net_w net_s student y lambda_u decay n_l n_u n_s k b _ SM K WN (conj LY Y) TL TW TS SP _ GS); [cbn [bind]; now split|].
    destruct epochs as [|st epochs]; [unfold lenZ in LE; cbn in LE; lia|]. destruct (FB st (or_introl eq_refl)) as (_ & _ & _ & _ & EU).
    specialize (EU n_s LT). assert (1 <= m / k_u)%Z by (apply Z.div_le_lower_bound; lia).
    destruct (visits_In n_s (map snd st) ltac:(lia)) as (iu & I & J). apply in_map_iff in I. destruct I as ([il iu'] & Eq & I). cbn in Eq. subst iu'.
    exists il, iu, n_s. split; [apply in_concat; exists st; split; [now left|exact I]|]. split; [exact J|lia].
  - destruct (mt_steps_spec softmax ce net_l net_w net_s student y lambda_u decay n_l n_u n_s k b _ SM K WN (conj LY Y) TL TW TS SP _ GS) with (start := student 0%Z) (t := 0%nat) as (losses & E & L & LS).
    { intros il iu i I J. destruct (GS il iu I) as [_ (_ & _ & _ & BU)]. specialize (BU i J). lia. }
    cbn [Z.of_nat teacher_at Nat.add] in E. rewrite E. cbn [bind]. exists epochs, m, (warmup_steps fraction (max_epochs * m)).
    split; [reflexivity|]. split; [exact GE|]. split; [now split|]. split; [exact LC|]. split; [apply warmup_spec|]. split; [exact L|].
    split; [reflexivity|]. split; [reflexivity|]. intros t il iu N. exact (LS t il iu N).
Qed.

(* ------------------------------------------------------------------ MixMatch *)
Lemma mix_rows_spec lam perm k n (l : list (list Q)) : length lam = n -> Permutation perm (seq 0 n) -> table n k l ->
  let m := zipw (fun lm p => blend lm (fst p) (snd p)) lam (combine l (map (fun i => nth i l []) perm)) in
  table n k m /\ forall r c, (r < n)%nat -> (c < k)%nat -> cell m r c = nth r lam 0 * cell l r c + (1 - nth r lam 0) * cell l (nth r perm 0%nat) c.
Proof.
  intros LL PP T m. assert (LP : length perm = n) by (apply Permutation_length in PP; now rewrite seq_length in PP).
  assert (BP : forall r, (r < n)%nat -> (nth r perm 0 < n)%nat).
  { intros r R. assert (I : In (nth r perm 0%nat) perm) by (apply nth_In; lia). apply (Permutation_in _ PP) in I. apply in_seq in I. lia. }
  assert (E : m = map (fun r => blend (nth r lam 0) (nth r l []) (nth (nth r perm 0%nat) l [])) (seq 0 n)).
  { unfold m. rewrite (zipw_seq _ lam _ 0 ([], [])) by (rewrite combine_length, map_length; destruct T; lia). rewrite LL. apply map_ext_in. intros r I. apply in_seq in I.
    rewrite combine_nth by (rewrite map_length; destruct T; lia). cbn [fst snd]. now rewrite (nth_map _ _ r 0%nat) by lia. }
  rewrite E. split.
  - split; [now rewrite map_length, seq_length|]. intros x I. apply in_map_iff in I. destruct I as (r & <- & I). apply in_seq in I. unfold blend.
    rewrite zipw_length; rewrite (table_nth n k l r T) by lia; [reflexivity|]. symmetry. apply (table_nth n); [exact T|]. apply BP. lia.
  - intros r c R C. unfold cell. rewrite (nth_map _ _ r 0%nat) by (rewrite seq_length; exact R). rewrite seq_nth by exact R. cbn [Nat.add].
    unfold blend. rewrite (zipw_seq _ _ _ 0 0) by (rewrite (table_nth n k l r T), (table_nth n k l _ T) by auto; reflexivity).
    rewrite (table_nth n k l r T R). rewrite (nth_map _ _ c 0%nat) by (rewrite seq_length; exact C). rewrite seq_nth by exact C. reflexivity.
Qed.
Lemma mix_weights_spec {W} (world : World W) alpha n w : (forall w a n, draws_ok (fst (w_beta world w a n)) n) ->
  let lam := fst (mix_weights world alpha n w) in
  length lam = n /\ (forall x, In x lam -> 1 # 2 <= x <= 1) /\ (alpha <= 0 -> forall x, In x lam -> x == 1).
Proof.
  intros D. unfold mix_weights. destruct (Qle_bool alpha 0) eqn:E; cbn [fst].
  - split; [apply repeat_length|]. split; intros; apply repeat_spec in H || (intros; apply repeat_spec in H0); subst; lra.
  - apply Qle_bool_false in E. specialize (D w alpha n). destruct (w_beta world w alpha n) as [dr w1]. cbn [fst] in *. destruct D as [L D].
    split; [now rewrite map_length|]. split; [|lra]. intros x I. apply in_map_iff in I. destruct I as (d & <- & I). specialize (D d I).
    destruct (Qlt_le_dec d (1 - d)) as [H|H]; [rewrite Q.max_r by lra|rewrite Q.max_l by lra]; lra.
Qed.
Lemma mixup_spec {St W} (G : Gen St) (world : World W) alpha xs ys s w k k' : gen_ok G -> (forall w a n, draws_ok (fst (w_beta world w a n)) n) ->
  (forall r, In r xs -> length r = k) -> (forall r, In r ys -> length r = k') ->
  match mixup G world alpha xs ys s w with
  | Ok (mx, my, s1, w1) => exists lam perm, Permutation perm (seq 0 (length xs)) /\ length lam = length xs /\
      (forall x, In x lam -> 1 # 2 <= x <= 1) /\ (alpha <= 0 -> forall x, In x lam -> x == 1) /\
      xs <> [] /\ length xs = length ys /\ table (length xs) k mx /\ table (length xs) k' my /\
      (forall r c, (r < length xs)%nat -> (c < k)%nat -> cell mx r c = nth r lam 0 * cell xs r c + (1 - nth r lam 0) * cell xs (nth r perm 0%nat) c) /\
      (forall r c, (r < length xs)%nat -> (c < k')%nat -> cell my r c = nth r lam 0 * cell ys r c + (1 - nth r lam 0) * cell ys (nth r perm 0%nat) c)
  | Err e => e = InductiveValidationError /\ (length xs <> length ys \/ xs = [])
  end.
Proof.
  intros GO D HX HY. unfold mixup. destruct (Nat.eqb_spec (length xs) (length ys)) as [L|L]; cbn [negb]; [|split; [reflexivity|now left]].
  destruct (Nat.eqb_spec (length xs) 0) as [N|N]; [split; [reflexivity|right; now apply length_zero_iff_nil]|].
  pose proof (mix_weights_spec world alpha (length xs) w D) as MW. destruct (mix_weights world alpha (length xs) w) as [lam w1]. cbn [fst] in MW.
  destruct MW as (LL & R & O). pose proof (GO s (length xs)) as PP. destruct (g_perm G s (length xs)) as [perm s1]. cbn [fst] in PP.
  destruct (mix_rows_spec lam perm k (length xs) xs LL PP) as [T1 E1]; [now split|].
  destruct (mix_rows_spec lam perm k' (length xs) ys LL PP) as [T2 E2]; [now split|].
  exists lam, perm. split; [exact PP|]. split; [exact LL|]. split; [exact R|]. split; [exact O|]. split; [intros ->; now apply N|]. split; [exact L|].
  split; [exact T1|]. split; [exact T2|]. split; [exact E1|exact E2].
Qed.

Lemma one_hot_length k c : length (one_hot k c) = k.
Proof. unfold one_hot. now rewrite map_length, seq_length. Qed.
Lemma one_hot_nth k c j : (j < k)%nat -> nth j (one_hot k c) 0 = if (Z.of_nat j =? c)%Z then 1 else 0.
Proof. intros H. unfold one_hot. rewrite (nth_map _ _ j 0%nat) by (rewrite seq_length; exact H). now rewrite seq_nth by exact H. Qed.
Lemma one_hot_sum k c : (0 <= c < Z.of_nat k)%Z -> Qsum (one_hot k c) == 1.
Proof.
  intros H. unfold one_hot.
  assert (G : forall n a, (Z.of_nat a <= c < Z.of_nat (a + n))%Z -> Qsum (map (fun j => if (Z.of_nat j =? c)%Z then 1 else 0) (seq a n)) == 1).
  { induction n as [|n IH]; intros a A; [lia|]. cbn [seq map]. rewrite Qsum_cons. destruct (Z.eqb_spec (Z.of_nat a) c) as [E|E].
    - rewrite Qsum_zero; [ring|]. intros x I. apply in_seq in I. replace (Z.of_nat x =? c)%Z with false by lia. reflexivity.
    - rewrite IH by lia. ring. }
  apply G. lia.
Qed.
Lemma one_hot_distribution k c : (0 <= c < Z.of_nat k)%Z -> distribution (one_hot k c).
Proof.
  intros H. split; [|now apply one_hot_sum]. intros x I. unfold one_hot in I. apply in_map_iff in I. destruct I as (j & <- & _). destruct (Z.of_nat j =? c)%Z; lra.
Qed.

Lemma sharpen_length pow one p : length (sharpen pow one p) = length p.
Proof. unfold sharpen. destruct one; [reflexivity|]. now rewrite !map_length. Qed.
Lemma Forall_table n k (t : list (list Q)) : length t = n -> (forall r, (r < n)%nat -> length (nth r t []) = k) -> table n k t.
Proof. intros L H. split; [exact L|]. intros r I. destruct (In_nth _ _ [] I) as (i & Hi & <-). apply H. lia. Qed.
Lemma table_app n m k a b : table n k a -> table m k b -> table (n + m) k (a ++ b).
Proof. intros [A1 A2] [B1 B2]. split; [rewrite app_length; lia|]. intros r I. apply in_app_or in I. destruct I; auto. Qed.
Lemma cell_overflow n k (t : list (list Q)) r c : table n k t -> (k <= c)%nat -> cell t r c = 0.
Proof.
  intros T C. unfold cell. destruct (Nat.lt_ge_cases r n) as [R|R].
  - apply nth_overflow. rewrite (table_nth n k t r T R). exact C.
  - rewrite (nth_overflow t) by (rewrite (proj1 T); exact R). now destruct c.
Qed.

Lemma mm_targets_spec softmax pow one yb lw ls n_u k : softmax_ok softmax -> (0 < n_u)%nat -> table n_u k lw -> table n_u k ls ->
  match mm_targets softmax pow one yb lw ls with
  | Ok targets => (forall c, In c yb -> (0 <= c < Z.of_nat k)%Z) /\ mix_targets pow one k yb (map softmax lw) (map softmax ls) targets
  | Err e => e = InductiveValidationError /\ exists c, In c yb /\ ~ (0 <= c < Z.of_nat k)%Z
  end.
Proof.
  intros SM NU TW TS. unfold mm_targets, same_shape. rewrite (proj1 TW), (proj1 TS), (table_width n_u k lw NU TW), (table_width n_u k ls NU TS), !Nat.eqb_refl. cbn [negb andb].
  set (pw := map softmax lw). set (ps := map softmax ls).
  assert (TPW : table n_u k pw) by (apply (softmax_table softmax k SM); assumption). assert (TPS : table n_u k ps) by (apply (softmax_table softmax k SM); assumption).
  destruct (zip2_spec (fun a b => (a + b) / 2) n_u k pw ps TPW TPS) as [TP EP]. set (probs := zipw (zipw (fun a b => (a + b) / 2)) pw ps) in *.
  set (pseudo := map (sharpen pow one) probs).
  assert (TQ : table n_u k pseudo) by (apply table_map; [exact TP|intros; apply sharpen_length]).
  rewrite (table_width n_u k pseudo NU TQ). destruct (existsb _ yb) eqn:E.
  - apply existsb_exists in E. destruct E as (c & I & E). split; [reflexivity|]. exists c. split; [exact I|lia].
  - assert (YB : forall c, In c yb -> (0 <= c < Z.of_nat k)%Z).
    { intros c I. destruct (Z_lt_le_dec c 0); [|destruct (Z_lt_le_dec c (Z.of_nat k)); [lia|]];
        exfalso; apply Bool.not_true_iff_false in E; apply E; apply existsb_exists; exists c; (split; [exact I|lia]). }
    split; [exact YB|]. unfold mix_targets. rewrite (proj1 TPW).
    assert (TH : table (length yb) k (map (one_hot k) yb)).
    { split; [now rewrite map_length|]. intros r I. apply in_map_iff in I. destruct I as (c & <- & _). apply one_hot_length. }
    split; [|split].
    + rewrite app_assoc. apply table_app; [apply table_app|]; assumption.
    + intros r c R C. unfold cell. rewrite app_nth1 by (rewrite map_length; exact R). rewrite (nth_map _ _ r 0%Z) by exact R. rewrite one_hot_nth by exact C. reflexivity.
    + intros r R.
      assert (E1 : nth (length yb + r) (map (one_hot k) yb ++ pseudo ++ pseudo) [] = nth r pseudo []).
      { rewrite app_nth2 by (rewrite map_length; lia). rewrite map_length. replace (length yb + r - length yb)%nat with r by lia. apply app_nth1. rewrite (proj1 TQ). exact R. }
      assert (E2 : nth (length yb + n_u + r) (map (one_hot k) yb ++ pseudo ++ pseudo) [] = nth r pseudo []).
      { rewrite app_nth2 by (rewrite map_length; lia). rewrite map_length. rewrite app_nth2 by (rewrite (proj1 TQ); lia). rewrite (proj1 TQ). f_equal. lia. }
      rewrite E1, E2. split; [|reflexivity]. exists (nth r probs []). split; [|split].
      * rewrite (table_nth n_u k probs r TP R), (table_nth n_u k pw r TPW R). reflexivity.
      * intros c. destruct (Nat.lt_ge_cases c k) as [C|C].
        -- specialize (EP r c R C). unfold cell in EP. rewrite EP. reflexivity.
        -- pose proof (cell_overflow n_u k probs r c TP C) as X1. pose proof (cell_overflow n_u k pw r c TPW C) as X2. pose proof (cell_overflow n_u k ps r c TPS C) as X3.
           unfold cell in *. rewrite X1, X2, X3. reflexivity.
      * unfold pseudo. rewrite (nth_map _ _ r []) by (rewrite (proj1 TP); exact R). destruct one; [reflexivity|]. apply sharpen_spec.
Qed.

Lemma table_firstn n m k t : table (n + m) k t -> table n k (firstn n t) /\ table m k (skipn n t).
Proof.
  intros [L H]. split; (split; [rewrite ?firstn_length, ?skipn_length; lia|]); intros r I; apply H; [now apply In_firstn in I|now apply In_skipn in I].
Qed.
Lemma soft_ce_spec k t z : length t = k -> length z = k -> - Qsum (zipw Qmult t z) == soft_cross_entropy k t z.
Proof. intros A B. unfold soft_cross_entropy. rewrite (zipw_seq _ t z 0 0) by lia. rewrite A. reflexivity. Qed.

Lemma mm_step_spec {St W} (G : Gen St) (world : World W) softmax log_softmax pow call one alpha lambda_u warm xl xw xs yb lw ls s w n_l n_u d k :
  gen_ok G -> (forall w a n, draws_ok (fst (w_beta world w a n)) n) -> softmax_ok softmax -> (forall z, length (log_softmax z) = length z) ->
  (0 < n_l)%nat -> (0 < n_u)%nat -> (0 < k)%nat -> length yb = n_l -> table n_l d xl -> table n_u d xw -> table n_u d xs -> table n_u k lw -> table n_u k ls ->
  (forall x, length (call x) = length x /\ forall r, In r (call x) -> length r = k) ->
  match mm_step G world softmax log_softmax pow call one alpha lambda_u warm xl xw xs yb lw ls s w with
  | Ok (loss, _, _) => exists lam perm targets mx my sup unsup,
      (forall c, In c yb -> (0 <= c < Z.of_nat k)%Z) /\
      Permutation perm (seq 0 (n_l + n_u + n_u)) /\ length lam = (n_l + n_u + n_u)%nat /\
      (forall x, In x lam -> 1 # 2 <= x <= 1) /\ (alpha <= 0 -> forall x, In x lam -> x == 1) /\
      mix_targets pow one k yb (map softmax lw) (map softmax ls) targets /\
      mixture lam perm d (xl ++ xw ++ xs) mx /\ mixture lam perm k targets my /\
      average (map (fun r => soft_cross_entropy k (nth r my []) (log_softmax (nth r (call mx) []))) (seq 0 n_l)) sup /\
      average (entries_of (n_u + n_u) k (fun r c => square (nth c (softmax (nth (n_l + r) (call mx) [])) 0 - cell my (n_l + r) c))) unsup /\
      loss == sup + lambda_u * unsup * warm
  | Err e => e = InductiveValidationError /\ exists c, In c yb /\ ~ (0 <= c < Z.of_nat k)%Z
  end.
Proof.
  intros GO D SM LSM NL NU K LY TX TXW TXS TW TS CALL. unfold mm_step.
  pose proof (mm_targets_spec softmax pow one yb lw ls n_u k SM NU TW TS) as MT. destruct (mm_targets softmax pow one yb lw ls) as [targets|e]; cbn [bind]; [|exact MT].
  destruct MT as [YB MT]. assert (TT : table (n_l + n_u + n_u) k targets).
  { destruct MT as [T _]. rewrite LY in T. rewrite map_length, (proj1 TW) in T. exact T. }
  set (X := xl ++ xw ++ xs). assert (TXX : table (n_l + n_u + n_u) d X) by (unfold X; rewrite app_assoc; apply table_app; [apply table_app|]; assumption).
  pose proof (mixup_spec G world alpha X targets s w d k GO D (proj2 TXX) (proj2 TT)) as MU.
  destruct (mixup G world alpha X targets s w) as [[[[mx my] s1] w1]|e]; cbn [bind].
  2:{ exfalso. destruct MU as [_ [H|H]]; [apply H; rewrite (proj1 TXX), (proj1 TT); reflexivity|]. apply (f_equal (@length _)) in H. rewrite (proj1 TXX) in H. cbn in H. lia. }
  rewrite (proj1 TXX) in MU. destruct MU as (lam & perm & PP & LL & R & O & _ & _ & T1 & T2 & E1 & E2).
  rewrite (proj1 TX).
  assert (TC : table (n_l + (n_u + n_u)) k (call mx)) by (destruct (CALL mx) as [C1 C2]; split; [rewrite C1, (proj1 T1); lia|exact C2]).
  assert (T2' : table (n_l + (n_u + n_u)) k my) by (now rewrite Nat.add_assoc).
  destruct (table_firstn n_l (n_u + n_u) k _ TC) as [C1 C2]. destruct (table_firstn n_l (n_u + n_u) k _ T2') as [Y1 Y2].
  eexists lam, perm, targets, mx, my, _, _. split; [exact YB|]. split; [exact PP|]. split; [exact LL|]. split; [exact R|]. split; [exact O|]. split; [exact MT|].
  split; [split; [rewrite (proj1 T1), (proj1 TXX); reflexivity|]; intros r H; rewrite (proj1 TXX) in H; split; [now apply (table_nth (n_l + n_u + n_u))|]; intros c C; rewrite (E1 r c H C); reflexivity|].
  split; [split; [rewrite (proj1 T2), (proj1 TT); reflexivity|]; intros r H; rewrite (proj1 TT) in H; split; [now apply (table_nth (n_l + n_u + n_u))|]; intros c C; rewrite (E2 r c H C); reflexivity|].
  split; [|split; [|reflexivity]].
  - refine (average_ext _ _ _ _ (average_mean _ _)).
    + rewrite (zipw_seq _ (firstn n_l my) (firstn n_l (call mx)) [] []) by (rewrite (proj1 Y1), (proj1 C1); reflexivity). rewrite (proj1 Y1).
      apply Forall2_map_same. intros r I. apply in_seq in I. rewrite !nth_firstn_lt by lia. apply soft_ce_spec.
      * apply (table_nth (n_l + (n_u + n_u))); [exact T2'|lia].
      * rewrite LSM. apply (table_nth (n_l + (n_u + n_u))); [exact TC|lia].
    + intros H. apply (f_equal (@length _)) in H. rewrite zipw_length in H by (rewrite (proj1 Y1), (proj1 C1); reflexivity). rewrite (proj1 Y1) in H. cbn in H. lia.
  - pose proof (mse_spec (n_u + n_u) k (map softmax (skipn n_l (call mx))) (skipn n_l my) ltac:(lia) K ltac:(apply (softmax_table softmax k SM); exact C2) Y2) as A.
    revert A. apply average_entries. intros r c Rr Cc. unfold square, cell. rewrite (nth_map _ _ r []) by (rewrite (proj1 C2); exact Rr). rewrite !nth_skipn. reflexivity.
Qed.

(* mixing keeps distributions, and a labelled row's own class keeps at least half *)
Lemma mixture_distribution lam perm k n l m : length l = n -> length lam = n -> (forall x, In x lam -> 1 # 2 <= x <= 1) -> Permutation perm (seq 0 n) ->
  (forall r, In r l -> length r = k /\ distribution r) -> mixture lam perm k l m ->
  forall r, (r < n)%nat -> distribution (nth r m []) /\ forall c, (c < k)%nat -> (1 # 2) * cell l r c <= cell m r c.
Proof.
  intros LL LM R PP D [L M] r Hr. rewrite LL in M. destruct (M r Hr) as [Lr E]. specialize (R (nth r lam 0) ltac:(apply nth_In; lia)).
  assert (LP : length perm = n) by (apply Permutation_length in PP; now rewrite seq_length in PP).
  assert (Pr : (nth r perm 0 < n)%nat) by (assert (I : In (nth r perm 0%nat) perm) by (apply nth_In; lia); apply (Permutation_in _ PP) in I; apply in_seq in I; lia).
  destruct (D (nth r l []) ltac:(apply nth_In; lia)) as [K1 D1]. destruct (D (nth (nth r perm 0%nat) l []) ltac:(apply nth_In; lia)) as [K2 D2].
  apply (distribution_nth k) in D1; [|exact K1]. apply (distribution_nth k) in D2; [|exact K2]. destruct D1 as [N1 S1], D2 as [N2 S2]. split.
  - apply (distribution_nth k); [exact Lr|]. split.
    + intros c C. specialize (E c C). unfold cell in E. rewrite E. specialize (N1 c C). specialize (N2 c C). nra.
    + rewrite (Qsum_ext _ (fun c => nth r lam 0 * nth c (nth r l []) 0 + (1 - nth r lam 0) * nth c (nth (nth r perm 0%nat) l []) 0)).
      * rewrite Qsum_plus, !Qsum_scale, S1, S2. ring.
      * intros c I. apply in_seq in I. apply E. lia.
  - intros c C. rewrite (E c C). unfold cell. specialize (N1 c C). specialize (N2 c C). nra.
Qed.
