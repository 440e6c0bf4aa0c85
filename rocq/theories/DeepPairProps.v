(* C97-C99: Meta Pseudo Labels, Deep Co-Training, the Pi-Model and virtual adversarial training. *)
From Coq Require Import QArith Qminmax Qabs Lqa ZArith List Bool Lia ZifyBool ZifyNat.
From Verif Require Import Prelude ListFacts QFacts DeepBatchModel DeepBatchSpec DeepBatchProofs DeepBatchProps DeepLossModel DeepLossSpec DeepLossProofs DeepLossProps
  DeepThreshSpec DeepThreshProofs DeepEmaModel DeepEmaSpec DeepEmaProofs DeepEmaProps TriNetProofs DeepPairModel DeepPairSpec DeepPairProofs.
Import ListNotations.
Open Scope Q_scope.
Open Scope list_scope.

(* ------------------------------------------------------------------ C97: Meta Pseudo Labels *)
(* C97: a fit either refuses its arguments, or at every step the student follows the teacher's strong predictions, and the
   teacher follows its labelled loss, its consistency loss over the confident rows, and the entropy of its strong predictions
   weighted by how far the student's change of labelled loss exceeds its running average. *)
Theorem C97_fit : forall (St : Type) (G : Gen St) softmax log_softmax sharp ce cfg t_l t_w t_s s_s s_l same ids_t ids_s y n_l n_u n_s n_ls b max_epochs sl su k,
  gen_ok G -> softmax_ok softmax -> softmax_ok sharp -> (forall z, length (log_softmax z) = length z) -> (0 < k)%nat ->
  length y = n_l -> (forall c, In c y -> (0 <= c < Z.of_nat k)%Z) ->
  (forall t idx, table (length idx) k (t_l t idx)) -> (forall t idx, table (length idx) k (t_w t idx)) -> (forall t idx, table (length idx) k (t_s t idx)) ->
  (forall t idx, table (length idx) k (s_s t idx)) -> (forall t u idx, table (length idx) k (s_l t u idx)) ->
  match mpl_fit softmax log_softmax ce sharp G cfg t_l t_w t_s s_s s_l same ids_t ids_s y n_l n_u n_s n_ls b max_epochs sl su with
  | Ok losses =>
      separate same ids_t ids_s /\ mpl_numbers_ok cfg /\ 0 < uda_temperature cfg /\ n_s = n_u /\ n_ls = n_l /\
      exists epochs changes, fit_batches G n_l n_u b max_epochs sl su = Ok epochs /\ length losses = length (concat epochs) /\ length changes = length (concat epochs) /\
      forall t il iu, nth_error (concat epochs) t = Some (il, iu) ->
        change ce s_l y (Z.of_nat t) il (nth t changes 0) /\ student_objective softmax log_softmax t_s s_s k (Z.of_nat t) iu (fst (nth t losses (0, 0))) /\
        teacher_objective softmax log_softmax sharp ce cfg t_l t_w t_s y k (Z.of_nat t) il iu (firstn (S t) changes) (snd (nth t losses (0, 0)))
  | Err e => e = InductiveValidationError /\
      (n_l = 0%nat \/ n_u = 0%nat \/ n_s <> n_u \/ n_ls <> n_l \/ ~ separate same ids_t ids_s \/ (b <= 0)%Z \/ (max_epochs <= 0)%Z \/ ~ mpl_numbers_ok cfg \/ uda_temperature cfg <= 0)
  end.
Proof. intros. now apply mpl_fit_spec. Qed.

(* C97: the running average includes the change of the present step, so what weights the entropy is mpl_ema times the distance
   to the average of the earlier steps. *)
Theorem C97_feedback : forall m earlier now,
  last (earlier ++ [now]) 0 - running (fun x => x) m 0 (earlier ++ [now]) == m * (now - running (fun x => x) m 0 earlier).
Proof. intros m earlier now. rewrite last_last, running_app, running_one. ring. Qed.

(* C97 (refuted): a positive weight of the feedback does not make the teacher listen to the student.  mpl_ema = 0, no
   averaging, passes the checks; then the student's change is compared with itself, and the teacher's loss is the same
   whatever the student does and whatever the weight. *)
Theorem C97_no_feedback : forall softmax log_softmax sharp ce cfg t_l t_w t_s y k t il iu changes now v,
  mpl_ema cfg == 0 -> teacher_objective softmax log_softmax sharp ce cfg t_l t_w t_s y k t il iu (changes ++ [now]) v ->
  exists sup uda, labelled_loss log_softmax ce cfg t_l y k t il sup /\ consistency log_softmax sharp cfg t_w t_s k t iu uda /\ v == sup + uda_weight cfg * uda.
Proof.
  intros until v. intros E (sup & uda & ent & A & B & _ & V). exists sup, uda. split; [exact A|]. split; [exact B|]. rewrite V, C97_feedback.
  generalize (now - running (fun x => x) (mpl_ema cfg) 0 changes). intros q. rewrite E. ring.
Qed.
Definition ex_mpl (ema weight : Q) : mpl_config :=
  {| uda_weight := 1; uda_threshold := 6 # 10; uda_temperature := 1 # 2; smoothing := 1 # 10; mpl_ema := ema; mpl_weight := weight |}.
Definition ex_run (ema weight : Q) (after : Q) := mpl_fit ex_softmax ex_log_softmax ex_ce ex_softmax ex_gen (ex_mpl ema weight) (ex_net 1 3) (ex_net 9 1) (ex_net 3 2) (ex_net 1 1)
  (fun t u => ex_net 1 (if (u =? t)%Z then 3 else after) t) false [1%Z; 2%Z] [3%Z] [1%Z; 1%Z] 2 2 2 2 2 1 0%nat 0%nat.
Definition same_losses (a b : result (list (Q * Q))) : Prop :=
  match a, b with Ok l, Ok l' => l <> [] /\ Forall2 (fun p q => fst p == fst q /\ snd p == snd q) l l' | _, _ => False end.
Theorem C97_student_matters_refuted :
  ~ (forall ema after, 0 <= ema -> ema < 1 -> ~ same_losses (ex_run ema 1 after) (ex_run ema 1 3) \/ after == 3).
Proof. intros H. destruct (H 0 5 ltac:(lra) ltac:(lra)) as [A|A]; [|vm_compute in A; discriminate A]. apply A. vm_compute. split; [discriminate|repeat constructor]. Qed.
(* with a positive mpl_ema it does matter *)
Example C97_ex : ~ same_losses (ex_run (1 # 2) 1 5) (ex_run (1 # 2) 1 3) /\ (exists losses, ex_run (1 # 2) 1 5 = Ok losses /\ length losses = 1%nat) /\ mpl_numbers_ok (ex_mpl (1 # 2) 1).
Proof.
  split; [intros [_ H]; pose proof (Forall2_nth_inv _ _ _ (0, 0) (0, 0) 0%nat H ltac:(vm_compute; lia)) as [_ E]; vm_compute in E; discriminate E|].
  split; [eexists; split; [vm_compute; reflexivity|reflexivity]|]. repeat split; cbn; lra.
Qed.

(* ------------------------------------------------------------------ C98: Deep Co-Training *)
(* C98: a fit either refuses its arguments, or draws for every step two labelled batches of the same size and an unlabelled
   batch, all three streams using their rows evenly, and follows the two cross entropies, the disagreement of the networks on
   the unlabelled rows and the cross entropy of each network on the rows that were attacked for the other one. *)
Theorem C98_fit : forall (St : Type) (G : Gen St) softmax log_softmax ce argmax log cfg X_l X_u y net_attack net_clean net_adv grad same ids1 ids2 b max_epochs s1 s2 su k d,
  gen_ok G -> softmax_ok softmax -> (forall z, length (log_softmax z) = length z) -> (0 < k)%nat ->
  (forall r, In r X_l -> length r = d) -> (forall r, In r X_u -> length r = d) ->
  (forall v t x, table (length x) k (net_attack v t x)) -> (forall v t x, table (length x) k (net_clean v t x)) -> (forall v t x, table (length x) k (net_adv v t x)) ->
  (forall v t x tg, table (length x) d x -> table (length x) d (grad v t x tg)) ->
  match dct_fit softmax log_softmax ce argmax log G cfg X_l X_u y net_attack net_clean net_adv grad same ids1 ids2 b max_epochs s1 s2 su with
  | Ok losses => separate same ids1 ids2 /\ dct_numbers_ok cfg /\ exists steps, dct_steps_ok (length X_l) (length X_u) b max_epochs steps /\ length losses = length steps /\
      forall t i1 i2 iu, nth_error steps t = Some (i1, i2, iu) ->
        co_objective softmax log_softmax ce argmax log cfg X_l X_u y net_attack net_clean net_adv grad k (Z.of_nat t) i1 i2 iu (nth t losses 0)
  | Err e => e = InductiveValidationError /\ (X_l = [] \/ X_u = [] \/ ~ separate same ids1 ids2 \/ (b <= 0)%Z \/ (max_epochs <= 0)%Z \/ ~ dct_numbers_ok cfg)
  end.
Proof. intros. now apply (dct_fit_spec G softmax log_softmax ce argmax log cfg X_l X_u y net_attack net_clean net_adv grad same ids1 ids2 b max_epochs s1 s2 su k d). Qed.

(* C98: an attacked value stays within adv_eps of a value that lies in the clip range. *)
Theorem C98_attack_is_small : forall eps lo hi x g a j,
  0 <= eps -> attacked eps lo hi x g a -> (j < length x)%nat -> inside lo hi (nth j x 0) -> Qabs (nth j a 0 - nth j x 0) <= eps.
Proof.
  intros eps lo hi x g a j E [L H] J I. specialize (H j J). cbv zeta in H. destruct H as (H1 & H2 & H3).
  set (q := if Qlt_le_dec 0 (nth j g 0) then eps else if Qlt_le_dec (nth j g 0) 0 then - eps else 0) in *.
  assert (B : - eps <= q <= eps) by (unfold q; destruct (Qlt_le_dec 0 (nth j g 0)); [lra|]; destruct (Qlt_le_dec (nth j g 0) 0); lra).
  apply Qabs_Qle_condition. destruct I as [I1 I2].
  destruct lo as [l|]; [destruct (Qlt_le_dec (nth j x 0 + q) l) as [C|C]; [rewrite (H2 l eq_refl C); specialize (I1 l eq_refl); lra|]|];
  (destruct hi as [h|]; [destruct (Qlt_le_dec h (nth j x 0 + q)) as [C2|C2]; [rewrite (H3 h eq_refl C2); specialize (I2 h eq_refl); lra|]|]);
  (rewrite H1; [lra|]; split; intros ? Z; try discriminate Z; injection Z as <-; assumption).
Qed.

(* C98: the disagreement of two networks is never negative when x * log(x + 1e-12) is convex, and 0 when they agree. *)
Theorem C98_disagreement : forall log k (p q : nat -> Q),
  (forall x v, 0 <= x -> 0 <= v -> (1 # 2) * (x + v) * log ((1 # 2) * (x + v) + (1 # 1000000000000)) <= (1 # 2) * (x * log (x + (1 # 1000000000000)) + v * log (v + (1 # 1000000000000)))) ->
  (forall c, (c < k)%nat -> 0 <= p c /\ 0 <= q c) ->
  0 <= spread log k (fun c => (1 # 2) * (p c + q c)) - (1 # 2) * spread log k p - (1 # 2) * spread log k q.
Proof.
  intros log k p q CV NN. unfold spread.
  assert (H : Qsum (map (fun c => (1 # 2) * (p c + q c) * log ((1 # 2) * (p c + q c) + (1 # 1000000000000))) (seq 0 k))
            <= Qsum (map (fun c => (1 # 2) * (p c * log (p c + (1 # 1000000000000)) + q c * log (q c + (1 # 1000000000000)))) (seq 0 k))).
  { apply Qsum_le. intros c I. apply in_seq in I. apply CV; apply NN; lia. }
  rewrite Qsum_scale, Qsum_plus in H. lra.
Qed.

(* C98: after a fit, the prediction for every row is the mean of the two networks' probabilities, a distribution, whatever the
   batch size; before a fit it is refused. *)
Theorem C98_predict : forall (X : Type) softmax (score : nat -> X -> list Q) width_of b xs k,
  softmax_ok softmax -> (0 < b)%Z -> (0 < k)%nat -> (forall v x, length (score v x) = width_of v) -> width_of 0%nat = k -> width_of 1%nat = k ->
  dct_predict softmax score width_of false b xs = Err RuntimeError /\
  exists probs, dct_predict softmax score width_of true b xs = Ok probs /\ length probs = length xs /\
    forall r dx, (r < length xs)%nat -> length (nth r probs []) = k /\ distribution (nth r probs []) /\
      forall c, (c < k)%nat -> average (map (fun v => nth c (softmax (score v (nth r xs dx))) 0) [0; 1]%nat) (nth c (nth r probs []) 0).
Proof.
  intros X softmax score width_of b xs k SM B K LS W0 W1. split; [reflexivity|]. unfold dct_predict. cbn [negb].
  destruct (cut_range xs b B) as (starts & PR & CU & _). rewrite PR. cbn [bind]. rewrite W0, W1, Nat.eqb_refl. cbn [negb].
  assert (E : forall v, flat_map (fun st => map (score v) (slice xs st b)) starts = map (score v) xs).
  { intros v. transitivity (map (score v) (concat (map (fun st => slice xs st b) starts))); [rewrite concat_map, map_map, flat_map_concat_map; reflexivity|now rewrite (proj1 (CU X xs eq_refl))]. }
  cbv zeta. rewrite !E, !map_map.
  set (f := fun x => zipw (fun p q => (p + q) * (1 # 2)) (softmax (score 0%nat x)) (softmax (score 1%nat x))).
  exists (map f xs). split; [now rewrite zipw_maps|]. split; [apply map_length|]. intros r dx R. rewrite (nth_map f xs r dx) by exact R. set (x := nth r xs dx).
  assert (L0 : length (softmax (score 0%nat x)) = k) by (rewrite (proj1 (SM _)), LS; exact W0).
  assert (L1 : length (softmax (score 1%nat x)) = k) by (rewrite (proj1 (SM _)), LS; exact W1).
  assert (EF : f x = map (fun c => (nth c (softmax (score 0%nat x)) 0 + nth c (softmax (score 1%nat x)) 0) * (1 # 2)) (seq 0 k)).
  { unfold f. rewrite (zipw_seq _ _ _ 0 0) by congruence. now rewrite L0. }
  assert (NE : forall v, width_of v = k -> score v x <> []) by (intros v W Z; specialize (LS v x); rewrite Z, W in LS; cbn in LS; lia).
  assert (SP : forall v, width_of v = k -> Qsum (map (fun c => nth c (softmax (score v x)) 0) (seq 0 k)) == 1).
  { intros v W. rewrite <- (row_entries k (softmax (score v x))) by (rewrite (proj1 (SM _)), LS; exact W). now apply SM, NE. }
  split; [rewrite EF; now rewrite map_length, seq_length|]. split.
  - rewrite EF. split.
    + intros q I. apply in_map_iff in I. destruct I as (c & <- & I). apply in_seq in I.
      assert (0 <= nth c (softmax (score 0%nat x)) 0) by (apply (SM (score 0%nat x)), nth_In; lia). assert (0 <= nth c (softmax (score 1%nat x)) 0) by (apply (SM (score 1%nat x)), nth_In; lia). lra.
    + rewrite Qsum_scale_r, Qsum_plus, (SP 0%nat W0), (SP 1%nat W1). reflexivity.
  - intros c C. rewrite EF, (nth_map (fun c => (nth c (softmax (score 0%nat x)) 0 + nth c (softmax (score 1%nat x)) 0) * (1 # 2)) (seq 0 k) c 0%nat) by (now rewrite seq_length).
    rewrite seq_nth by exact C. cbn [map Nat.add]. split; [|discriminate]. rewrite !Qsum_cons, Qsum_nil. unfold lenZ. cbn [length]. change (inject_Z (Z.of_nat 2)) with 2. ring.
Qed.
Theorem C98_unequal_networks : forall (X : Type) softmax (score : nat -> X -> list Q) width_of b xs,
  (0 < b)%Z -> width_of 0%nat <> width_of 1%nat -> dct_predict softmax score width_of true b xs = Err InductiveValidationError.
Proof.
  intros X softmax score width_of b xs B W. unfold dct_predict. cbn [negb]. destruct (cut_range xs b B) as (starts & PR & _). rewrite PR. cbn [bind].
  apply Nat.eqb_neq in W. now rewrite W.
Qed.

Definition ex_dct : dct_config := {| lambda_cot := 10; lambda_dif := 1 # 2; adv_eps := 1 # 10; clip_min := Some 0; clip_max := Some 1 |}.
Definition ex_view (v : nat) (t : Z) (x : list (list Q)) : list (list Q) := map (fun r => if Nat.eqb v 0 then [nth 0 r 0; 1] else [1; nth 0 r 0]) x.
Definition ex_grad (v : nat) (t : Z) (x : list (list Q)) (tg : list Z) : list (list Q) := map (map (fun q => q - (1 # 2))) x.
Example C98_ex :
  (exists losses, dct_fit ex_softmax ex_log_softmax ex_ce ex_argmax (fun x => x) ex_gen ex_dct [[95 # 100]; [1 # 3]; [0]] [[1 # 2]; [1]] [0; 1; 1]%Z ex_view ex_view ex_view ex_grad false [1%Z] [2%Z] 2 1 0%nat 1%nat 2%nat = Ok losses /\ length losses = 2%nat) /\
  dct_numbers_ok ex_dct /\ (forall v t x, table (length x) 2 (ex_view v t x)) /\ (forall v t x tg, table (length x) 1 x -> table (length x) 1 (ex_grad v t x tg)) /\
  attacked (1 # 10) (Some 0) (Some 1) [95 # 100; 1 # 2; 1 # 3] [2; 0; -1] [1; 1 # 2; 7 # 30] /\
  (forall x v : Q, 0 <= x -> 0 <= v -> (1 # 2) * (x + v) * ((fun q => q) ((1 # 2) * (x + v) + (1 # 1000000000000))) <= (1 # 2) * (x * (x + (1 # 1000000000000)) + v * (v + (1 # 1000000000000)))) /\
  (exists probs, dct_predict ex_softmax (fun v x => if Nat.eqb v 0 then [x; 1] else [1; x]) (fun _ => 2%nat) true 2 [3; 1; 2] = Ok probs /\ Forall2 (Forall2 Qeq) probs [[1 # 2; 1 # 2]; [1 # 2; 1 # 2]; [1 # 2; 1 # 2]]).
Proof.
  split; [eexists; split; [vm_compute; reflexivity|reflexivity]|].
  split; [split; [cbn; lra|split; [cbn; lra|split; [cbn; lra|]]]; intros a b A B; injection A as <-; injection B as <-; lra|].
  split; [intros v t x; split; [apply map_length|]; intros r I; apply in_map_iff in I; destruct I as (q & <- & _); now destruct (Nat.eqb v 0)|].
  split; [intros v t x tg T; apply table_map; [exact T|]; intros r; apply map_length|].
  split.
  { split; [reflexivity|]. intros [|[|[|j]]] J; cbn in J; try lia; cbn [nth]; (destruct (Qlt_le_dec _ _) as [C|C]; [|try (exfalso; lra)]); try (exfalso; lra); try (destruct (Qlt_le_dec _ _) as [C'|C']; [|try (exfalso; lra)]); try (exfalso; lra);
      (split; [intros [A B]; specialize (A 0 eq_refl); specialize (B 1 eq_refl); lra|]; split; intros ? E; injection E as <-; lra). }
  split; [intros x v X V; cbv beta; assert (SQ : 0 <= (x - v) * (x - v)) by (destruct (Qlt_le_dec x v); nra); generalize (1 # 1000000000000); intros q; nra|].
  eexists. split; [vm_compute; reflexivity|]. repeat constructor.
Qed.

(* ------------------------------------------------------------------ C99: Pi-Model and VAT *)
(* C99: the Pi-Model either refuses its arguments, or fails with IndexError only when the second view has fewer rows than the
   first, or follows at every step the cross entropy plus the warmed-up mean square difference of its two predictions. *)
Theorem C99_pi_fit : forall (St : Type) (G : Gen St) softmax ce net_l net_w net_s y lambda_u fraction n_l n_u n_s b max_epochs sl su k,
  gen_ok G -> softmax_ok softmax -> (0 < k)%nat -> length y = n_l -> (forall c, In c y -> (0 <= c < Z.of_nat k)%Z) ->
  (forall t idx, table (length idx) k (net_l t idx)) -> (forall t idx, table (length idx) k (net_w t idx)) -> (forall t idx, table (length idx) k (net_s t idx)) ->
  match pi_fit softmax ce G net_l net_w net_s y lambda_u fraction n_l n_u n_s b max_epochs sl su with
  | Ok losses => exists epochs warmup,
      fit_batches G n_l n_u b max_epochs sl su = Ok epochs /\ (n_u <= n_s)%nat /\ 0 <= lambda_u /\ 0 <= fraction /\
      ramp_length fraction (lenZ (concat epochs)) warmup /\ length losses = length (concat epochs) /\
      forall t il iu, nth_error (concat epochs) t = Some (il, iu) -> pi_loss_spec softmax ce net_l net_w net_s y lambda_u k warmup (Z.of_nat t) il iu (nth t losses 0)
  | Err InductiveValidationError => n_s = 0%nat \/ n_l = 0%nat \/ n_u = 0%nat \/ (b <= 0)%Z \/ (max_epochs <= 0)%Z \/ lambda_u < 0 \/ fraction < 0
  | Err e => e = IndexError /\ (n_s < n_u)%nat
  end.
Proof. intros. now apply pi_fit_spec. Qed.

(* C99: VAT either refuses its arguments or a gradient that does not reach the input, or follows at every step the cross
   entropy plus the warmed-up mean divergence under a perturbation found by the power iteration from random directions. *)
Theorem C99_vat_fit : forall (St : Type) (G : Gen St) softmax log_softmax ce log norm clean gradient moved randn xi eps net_l y lambda_u fraction iters n_l n_u b max_epochs sl su k,
  gen_ok G -> softmax_ok softmax -> (forall z, length (log_softmax z) = length z) -> (0 < k)%nat -> norm_ok norm -> length y = n_l -> (forall c, In c y -> (0 <= c < Z.of_nat k)%Z) ->
  (forall t idx, table (length idx) k (net_l t idx)) -> (forall t idx, table (length idx) k (clean t idx)) -> (forall t idx r, table (length idx) k (moved t idx r)) ->
  match vat_fit softmax log_softmax ce log G norm clean gradient moved randn xi eps net_l y lambda_u fraction iters n_l n_u b max_epochs sl su with
  | Ok outs => 0 < xi /\ 0 < eps /\ (0 < iters)%Z /\ 0 <= lambda_u /\ 0 <= fraction /\ exists epochs warmup,
      fit_batches G n_l n_u b max_epochs sl su = Ok epochs /\ ramp_length fraction (lenZ (concat epochs)) warmup /\ length outs = length (concat epochs) /\
      forall t il iu, nth_error (concat epochs) t = Some (il, iu) ->
        vat_step_ok softmax log_softmax ce log net_l y lambda_u k warmup norm clean gradient moved randn xi eps iters (Z.of_nat t) il iu (nth t outs (0, []))
  | Err e => e = InductiveValidationError /\
      (n_l = 0%nat \/ n_u = 0%nat \/ (b <= 0)%Z \/ (max_epochs <= 0)%Z \/ lambda_u < 0 \/ fraction < 0 \/ xi <= 0 \/ eps <= 0 \/ (iters <= 0)%Z \/ exists t j iu p d, gradient t j iu p d = None)
  end.
Proof. intros. now apply vat_fit_spec. Qed.

(* a length over the rationals: the greatest absolute value *)
Definition ex_norm (v : list Q) : Q := fold_right Qmax 0 (map Qabs v).
Lemma ex_norm_ok : norm_ok ex_norm.
Proof.
  unfold ex_norm. split.
  - intros v. induction v as [|x v IH]; cbn [map fold_right]; [lra|]. eapply Qle_trans; [exact IH|apply Q.le_max_r].
  - intros c v w C F. induction F as [|x z v w E F IH]; cbn [map fold_right]; [ring|]. rewrite IH, E, Qabs_Qmult, (Qabs_pos c) by exact C.
    destruct (Q.max_spec (Qabs x) (fold_right Qmax 0 (map Qabs v))) as [[A B]|[A B]]; rewrite B; [apply Q.max_r|apply Q.max_l]; nra.
Qed.
Definition ex_vat (g : Q) := vat_fit ex_softmax ex_log_softmax ex_ce (fun x => x) ex_gen ex_norm (ex_net 1 3) (fun _ _ idx _ d => Some (map (fun _ => [g; - g]) idx)) (fun t idx _ => ex_net 2 3 t idx)
  (fun _ n => repeat [1; 2] n) (1 # 10) 2 (ex_net 1 3) [1%Z] 1 0 1 1 2 1 1 0%nat 0%nat.
(* C99 (refuted): the perturbation need not have length eps: with a zero gradient it is zero, so the unlabelled rows are
   compared with themselves. *)
Theorem C99_length_refuted :
  ~ (forall g outs t, ex_vat g = Ok outs -> (t < length outs)%nat -> Forall (fun r => ex_norm r == 2) (snd (nth t outs (0, [])))).
Proof. intros H. pose proof (H 0 _ 0%nat eq_refl) as H0. vm_compute in H0. specialize (H0 ltac:(lia)). inversion H0 as [|? ? E]. discriminate E. Qed.
Example C99_ex :
  (exists outs, ex_vat (1 # 3) = Ok outs /\ length outs = 2%nat /\ Forall (fun o => Forall2 (Forall2 Qeq) (snd o) [[2; -2]]) outs) /\
  (exists losses, pi_fit ex_softmax ex_ce ex_gen (ex_net 1 3) (ex_net 1 3) (ex_net 3 1) [1%Z] 1 (1 # 2) 1 2 2 1 1 0%nat 0%nat = Ok losses /\ Forall2 Qeq losses [1 # 4; 1 # 2]) /\
  pi_fit ex_softmax ex_ce ex_gen (ex_net 1 3) (ex_net 1 3) (ex_net 3 1) [1%Z] 1 (1 # 2) 1 2 1 1 1 0%nat 0%nat = Err IndexError.
Proof.
  split; [eexists; split; [vm_compute; reflexivity|]; split; [reflexivity|repeat constructor]|].
  split; [eexists; split; [vm_compute; reflexivity|repeat constructor]|reflexivity].
Qed.

(* C97, C99: a label outside 0..k-1 never passes. *)
Theorem C97_bad_label : forall (St : Type) (G : Gen St) softmax log_softmax sharp ce cfg t_l t_w t_s s_s s_l same ids_t ids_s y n_l n_u n_s n_ls b max_epochs sl su k i losses,
  gen_ok G -> (i < n_l)%nat -> ~ (0 <= nth i y 0 < Z.of_nat k)%Z -> (forall t idx, table (length idx) k (t_l t idx)) ->
  mpl_fit softmax log_softmax ce sharp G cfg t_l t_w t_s s_s s_l same ids_t ids_s y n_l n_u n_s n_ls b max_epochs sl su <> Ok losses.
Proof. intros St G softmax log_softmax sharp ce cfg t_l t_w t_s s_s s_l same ids_t ids_s y n_l n_u n_s n_ls b max_epochs sl su k i losses. apply mpl_bad_label. Qed.
Theorem C99_bad_label : forall (St : Type) (G : Gen St) softmax log_softmax ce log net_l net_w net_s norm clean gradient moved randn xi eps y lambda_u fraction iters n_l n_u n_s b max_epochs sl su k i,
  gen_ok G -> (i < n_l)%nat -> ~ (0 <= nth i y 0 < Z.of_nat k)%Z -> (forall t idx, table (length idx) k (net_l t idx)) ->
  (forall losses, pi_fit softmax ce G net_l net_w net_s y lambda_u fraction n_l n_u n_s b max_epochs sl su <> Ok losses) /\
  (forall outs, vat_fit softmax log_softmax ce log G norm clean gradient moved randn xi eps net_l y lambda_u fraction iters n_l n_u b max_epochs sl su <> Ok outs).
Proof. intros until i. intros GO I BAD T. split; intros o; [eapply pi_bad_label|eapply vat_bad_label]; eassumption. Qed.
Print Assumptions C97_fit.
Print Assumptions C97_feedback.
Print Assumptions C97_no_feedback.
Print Assumptions C97_student_matters_refuted.
Print Assumptions C98_fit.
Print Assumptions C98_attack_is_small.
Print Assumptions C98_disagreement.
Print Assumptions C98_predict.
Print Assumptions C98_unequal_networks.
Print Assumptions C99_pi_fit.
Print Assumptions C99_vat_fit.
Print Assumptions C99_length_refuted.
Print Assumptions C97_bad_label.
Print Assumptions C99_bad_label.
