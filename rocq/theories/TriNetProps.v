(* C94-C96: Tri-Net. *)
From Coq Require Import QArith Qminmax Permutation Sorted Lqa Lia ZifyBool ZifyNat.
From Verif Require Import Prelude QFacts ListFacts DeepBatchModel DeepBatchSpec DeepBatchProofs DeepBatchProps DeepLossModel DeepLossSpec DeepLossProofs DeepLossProps DeepThreshSpec DeepThreshProofs DeepEmaModel DeepEmaSpec DeepEmaProofs CoMatchSpec TriNetModel TriNetSpec TriNetProofs.
Local Open Scope Z_scope.
Local Open Scope Q_scope.
Local Open Scope list_scope.

(* C94, C95: a fit either refuses its arguments, or fails because a head's number of outputs is not the greatest label plus
   one, or: the three heads are first trained on their own smeared labels, then max_rounds rounds follow the schedule; in a
   pool round each head is trained on the labelled rows and on exactly the pool rows that the two other heads label alike
   and confidently and keep under noise; every training pass uses every example once; the states are chained. *)
Theorem C94_fit : forall (St X M : Type) (G : Gen St) seeded randn softmax argmax (dx : X) (score : M -> nat -> X -> list Q) noisy learn head_width cfg shared heads X_l X_u y_l seed m,
  gen_ok G -> softmax_ok softmax -> argmax_ok argmax -> nets_ok head_width score noisy -> (forall s n w, table n w (randn s n w)) -> length y_l = length X_l ->
  match tn_fit G seeded randn softmax argmax dx score noisy learn head_width cfg shared heads X_l X_u y_l seed m with
  | Ok (init, rounds, m') =>
      numbers_ok cfg /\ bundles_ok shared heads /\ X_u <> [] /\ (forall c, In c y_l -> (0 <= c)%Z) /\
      exists k states, classes y_l k /\
        smear_jobs learn cfg X_l y_l k (fun v => randn (seed + Z.of_nat v)%Z (length y_l) k) m init (states 0%nat) /\
        lenZ rounds = max_rounds cfg /\ states (length rounds) = m' /\
        forall i, (i < length rounds)%nat ->
          scheduled dx cfg X_u (Z.of_nat (S i)) (firstn i rounds) (nth i rounds (Tuned [])) /\
          round_ok softmax argmax dx score noisy learn cfg X_l y_l k (fun v => randn (seed + 1000 + Z.of_nat (S i) * 10 + Z.of_nat v)%Z (length y_l) k)
            (nth i rounds (Tuned [])) (states i) (states (S i))
  | Err e =>
      (e = InductiveValidationError /\ (X_l = [] \/ X_u = [] \/ ~ bundles_ok shared heads \/ ~ numbers_ok cfg \/ exists c, In c y_l /\ (c < 0)%Z)) \/
      ((e = InductiveValidationError \/ e = RuntimeError) /\ exists k v, classes y_l k /\ (v < 3)%nat /\ head_width v <> k)
  end.
Proof. intros. now apply tn_fit_spec. Qed.

(* C94: the examples of a pool job, read off: the labelled rows come first with their labels, and every further example is a
   row of the pool with the class the two other heads agreed on in the state before the job, each pool row at most once. *)
Theorem C94_examples : forall (X M : Type) softmax argmax (dx : X) (score : M -> nat -> X -> list Q) noisy learn cfg X_l y_l k v j h sigma pool m jb m',
  pool_job softmax argmax dx score noisy learn cfg X_l y_l k v j h sigma pool m jb m' ->
  exists kept : list (nat * Z), j_rows jb = X_l ++ map (fun p => nth (fst p) pool dx) kept /\ j_targets jb = map (indicator k) y_l ++ map (fun p => indicator k (snd p)) kept /\
    (NoDup (map fst kept)) /\ (forall i c, In (i, c) kept -> (i < length pool)%nat /\ agreed softmax argmax score m j h sigma (nth i pool dx) c) /\
    ((des_passes cfg <= 1)%Z -> (stability_passes cfg <= 1)%Z -> forall i c, (i < length pool)%nat -> agreed softmax argmax score m j h sigma (nth i pool dx) c -> In (i, c) kept).
Proof.
  intros X M softmax argmax dx score noisy learn cfg X_l y_l k v j h sigma pool m jb m' (picked & steady & kept & m1 & m2 & AG & F1 & F2 & T).
  destruct T as (_ & _ & ER & ET & _). exists kept. split; [exact ER|]. split; [rewrite ET, map_app, map_map; reflexivity|].
  assert (SS : forall (l : list nat), StronglySorted lt l -> NoDup l).
  { induction l as [|x l IH]; intros S; [constructor|]. apply StronglySorted_inv in S. destruct S as [S F]. constructor; [|now apply IH]. intros I. rewrite Forall_forall in F. specialize (F x I). lia. }
  assert (ND : NoDup (map fst picked)) by apply SS, AG.
  assert (SUB : forall passes ma mb cand kp, filtered softmax argmax dx noisy cfg j h pool passes ma cand kp mb -> NoDup (map fst cand) -> NoDup (map fst kp)).
  { intros passes ma mb cand kp [A B] N. destruct (Z_le_gt_dec passes 1) as [L|L]; [now destruct (A L) as [-> _]|]. destruct (B ltac:(lia)) as (bs & preds & _ & _ & _ & ->).
    unfold stable. rewrite map_map. revert N. generalize (fun r => Qle_bool (inject_Z (differs preds r (snd (nth r cand (0%nat, 0%Z))))) (inject_Z passes * drop_fraction cfg)). intros f N.
    replace (map (fun x => fst (nth x cand (0%nat, 0%Z))) (filter f (seq 0 (length cand)))) with (map (fun r => nth r (map fst cand) 0%nat) (filter f (seq 0 (length cand)))) by (apply map_ext; intros r; change 0%nat with (fst (0%nat, 0%Z)) at 1; apply map_nth).
    assert (H : forall l, NoDup l -> (forall r, In r l -> (r < length (map fst cand))%nat) -> NoDup (map (fun r => nth r (map fst cand) 0%nat) (filter f l))).
    { induction l as [|r l IH]; intros NL B0; [constructor|]. inversion NL as [|? ? NI NL']; subst. cbn [filter]. specialize (IH NL' ltac:(intros; apply B0; now right)).
      destruct (f r); [|exact IH]. cbn [map]. constructor; [|exact IH]. intros I. apply in_map_iff in I. destruct I as (q & E & I). apply filter_In in I. destruct I as [I _].
      assert (q = r) as -> by (apply (proj1 (NoDup_nth _ 0%nat) N); [apply B0; now right|apply B0; now left|exact E]). now apply NI. }
    apply H; [apply seq_NoDup|]. intros r I. apply in_seq in I. rewrite map_length. lia. }
  split; [now apply (SUB _ _ _ _ _ F2), (SUB _ _ _ _ _ F1)|]. split.
  - intros i c I. apply (filtered_incl _ _ _ _ _ _ _ _ _ _ _ _ _ F2), (filtered_incl _ _ _ _ _ _ _ _ _ _ _ _ _ F1) in I. now apply AG.
  - intros D S i c I A. destruct F1 as [F1 _], F2 as [F2 _]. destruct (F1 S) as [-> _]. destruct (F2 D) as [-> _]. apply AG. now split.
Qed.

(* C94: smeared labels are distributions in which the true class keeps a share of 1 over 1 plus the total noise, or more. *)
Theorem C94_smeared_labels : forall k std noise c target, (0 <= c < Z.of_nat k)%Z -> smeared k std noise c target ->
  distribution target /\ 1 <= nth (Z.to_nat c) target 0 * (1 + Qsum (map (fun j => Qmax 0 (std * nth j noise 0)) (seq 0 k))) /\ (std == 0 -> Forall2 Qeq target (indicator k c)).
Proof.
  intros k std noise c target CK S. split; [now apply (smeared_distribution k std noise c)|]. destruct S as [L S]. cbv zeta beta in S. split.
  - rewrite S by lia. change (indicator k c) with (one_hot k c). rewrite one_hot_nth by lia. rewrite Z2Nat.id, Z.eqb_refl by lia. pose proof (Q.le_max_l 0 (std * nth (Z.to_nat c) noise 0)). lra.
  - intros Z0. apply (Forall2_nth _ _ _ 0 0); [rewrite L; symmetry; apply one_hot_length|]. intros j J. rewrite L in J. specialize (S j J).
    assert (B0 : forall i, Qmax 0 (std * nth i noise 0) == 0) by (intros i; rewrite Z0, Qmult_0_l; apply Q.max_id).
    rewrite (Qsum_ext _ (fun _ => 0)) in S by (intros; apply B0). rewrite B0, Qsum_zero in S by reflexivity. lra.
Qed.

(* C95: the thresholds of pool rounds lie in [0, 1], and between two rounds that both follow, or both do not follow, a
   labelled-only training, they never rise. *)
Theorem C95_thresholds : forall (X : Type) (dx : X) cfg X_u (rounds : list (@round X)), 0 <= sigma_decay cfg ->
  (forall i, (i < length rounds)%nat -> scheduled dx cfg X_u (Z.of_nat (S i)) (firstn i rounds) (nth i rounds (Tuned []))) ->
  let fresh i := match i with O => true | S i => match nth i rounds (Tuned []) with Tuned _ => true | _ => false end end in
  (forall i s p js, nth_error rounds i = Some (Pooled s p js) -> 0 <= s <= 1) /\
  (forall i i' s p js s' p' js', (i < i')%nat -> nth_error rounds i = Some (Pooled s p js) -> nth_error rounds i' = Some (Pooled s' p' js') -> fresh i = fresh i' -> s' <= s).
Proof.
  intros X dx cfg X_u rounds D H fresh.
  assert (FR : forall i, (i < length rounds)%nat -> match rev (firstn i rounds) with [] => true | Tuned _ :: _ => true | Pooled _ _ _ :: _ => false end = fresh i).
  { intros [|i] I; [reflexivity|]. unfold fresh. assert (E : firstn (S i) rounds = firstn i rounds ++ [nth i rounds (Tuned [])]).
    { clear -I. revert i I. induction rounds as [|r rs IH]; intros i I; [cbn in I; lia|]. destruct i as [|i]; [reflexivity|]. change (firstn (S (S i)) (r :: rs)) with (r :: firstn (S i) rs). rewrite IH by (cbn in I; lia). reflexivity. }
    rewrite E, rev_unit. destruct (nth i rounds (Tuned [])); reflexivity. }
  assert (FORM : forall i s p js, nth_error rounds i = Some (Pooled s p js) ->
    (i < length rounds)%nat /\ s == Qmin 1 (Qmax 0 (Qmax 0 (sigma0 cfg - inject_Z (tunings (firstn i rounds)) * sigma_decay cfg) - (if fresh i then sigma_os cfg else 0)))).
  { intros i s p js E. assert (I : (i < length rounds)%nat) by (apply nth_error_Some; congruence). split; [exact I|]. specialize (H i I). rewrite (nth_error_nth _ _ _ E) in H.
    destruct H as (_ & S & _). cbv zeta in S. rewrite (FR i I) in S. exact S. }
  split.
  - intros i s p js E. destruct (FORM i s p js E) as [_ S]. rewrite S. split; [apply Q.min_glb; [lra|apply Q.le_max_l]|apply Q.le_min_l].
  - intros i i' s p js s' p' js' L E E' F. destruct (FORM i s p js E) as [I S]. destruct (FORM i' s' p' js' E') as [I' S']. rewrite S, S', <- F.
    apply Q.min_le_compat_l, Q.max_le_compat_l. apply Qplus_le_compat; [|apply Qle_refl]. apply Q.max_le_compat_l.
    assert (T : (tunings (firstn i rounds) <= tunings (firstn i' rounds))%Z).
    { unfold tunings, lenZ. replace (firstn i' rounds) with (firstn i rounds ++ firstn (i' - i) (skipn i rounds)); [rewrite filter_app, app_length; lia|].
      replace i' with (i + (i' - i))%nat at 2 by lia. now rewrite firstn_plus. }
    rewrite Zle_Qle in T. nra.
Qed.

(* C96: after a fit, the prediction for every row is the mean of the three heads' probabilities, a distribution, whatever the
   batch size; before a fit it is refused. *)
Theorem C96_predict : forall (X M : Type) softmax (score : M -> nat -> X -> list Q) head_width m b xs k,
  softmax_ok softmax -> (0 < b)%Z -> (0 < k)%nat -> (forall h x, length (score m h x) = head_width h) -> (forall v, (v < 3)%nat -> head_width v = k) ->
  tn_predict softmax score head_width false m b xs = Err RuntimeError /\
  exists probs, tn_predict softmax score head_width true m b xs = Ok probs /\ length probs = length xs /\
    forall r dx, (r < length xs)%nat -> length (nth r probs []) = k /\ distribution (nth r probs []) /\
      forall c, (c < k)%nat -> average (map (fun v => nth c (softmax (score m v (nth r xs dx))) 0) [0; 1; 2]%nat) (nth c (nth r probs []) 0).
Proof.
  intros X M softmax score head_width m b xs k SM B K LS HW. split; [reflexivity|]. unfold tn_predict. cbn [negb].
  destruct (cut_range xs b B) as (starts & PR & CU & _). rewrite PR. cbn [bind]. rewrite !HW, Nat.eqb_refl by lia. cbn [andb negb].
  set (f := fun x => average3 (softmax (score m 0%nat x)) (softmax (score m 1%nat x)) (softmax (score m 2%nat x))).
  assert (E : flat_map (fun st => map f (slice xs st b)) starts = map f xs).
  { transitivity (map f (concat (map (fun st => slice xs st b) starts))); [rewrite concat_map, map_map, flat_map_concat_map; reflexivity|now rewrite (proj1 (CU X xs eq_refl))]. }
  exists (map f xs). split; [now rewrite E|]. split; [apply map_length|]. intros r dx R. rewrite (nth_map f xs r dx) by exact R. set (x := nth r xs dx).
  assert (LP : forall v, (v < 3)%nat -> length (softmax (score m v x)) = k) by (intros v V; rewrite (proj1 (SM _)), LS; now apply HW).
  assert (LF : length (f x) = k) by (unfold f, average3, zipw; rewrite map_length, !combine_length, !LP by lia; lia).
  assert (NF : forall c, (c < k)%nat -> nth c (f x) 0 = (nth c (softmax (score m 0%nat x)) 0 + nth c (softmax (score m 1%nat x)) 0 + nth c (softmax (score m 2%nat x)) 0) / 3).
  { intros c C. unfold f, average3. rewrite (zipw_seq _ _ _ (0, 0) 0) by (rewrite combine_length, !LP by lia; lia). rewrite combine_length, !LP, Nat.min_id by lia.
    rewrite (nth_map _ _ c 0%nat) by (rewrite seq_length; exact C). rewrite seq_nth by exact C. cbn [Nat.add]. rewrite combine_nth by (rewrite !LP by lia; reflexivity). reflexivity. }
  assert (DS : forall v, (v < 3)%nat -> distribution (softmax (score m v x))).
  { intros v V. destruct (SM (score m v x)) as (_ & P & S). split; [exact P|]. apply S. intros Z. assert (LE := LS v x). rewrite Z in LE. cbn in LE. rewrite HW in LE by exact V. lia. }
  split; [exact LF|]. split.
  - apply (distribution_nth k); [exact LF|]. split.
    + intros c C. rewrite NF by exact C. assert (P : forall v, (v < 3)%nat -> 0 <= nth c (softmax (score m v x)) 0) by (intros v V; apply (DS v V), nth_In; rewrite LP by exact V; exact C).
      pose proof (P 0%nat ltac:(lia)). pose proof (P 1%nat ltac:(lia)). pose proof (P 2%nat ltac:(lia)). apply Qle_shift_div_l; lra.
    + assert (SV : forall v, (v < 3)%nat -> Qsum (map (fun c => nth c (softmax (score m v x)) 0) (seq 0 k)) == 1) by (intros v V; rewrite <- (LP v V), nth_seq; apply (DS v V)).
      rewrite (Qsum_ext _ (fun c => (nth c (softmax (score m 0%nat x)) 0 + nth c (softmax (score m 1%nat x)) 0 + nth c (softmax (score m 2%nat x)) 0) * (1 # 3))).
      * rewrite Qsum_scale_r, !Qsum_plus, !SV by lia. reflexivity.
      * intros c C. apply in_seq in C. rewrite NF by lia. field.
  - intros c C. rewrite NF by exact C. split; [|discriminate]. cbn [map]. rewrite !Qsum_cons, Qsum_nil. unfold lenZ. cbn [length]. change (inject_Z (Z.of_nat 3)) with 3. field.
Qed.

(* C96: heads that disagree on the number of outputs are reported, not averaged. *)
Theorem C96_unequal_heads : forall (X M : Type) softmax (score : M -> nat -> X -> list Q) head_width m b xs, (0 < b)%Z -> ~ (head_width 0%nat = head_width 1%nat /\ head_width 1%nat = head_width 2%nat) ->
  tn_predict softmax score head_width true m b xs = Err InductiveValidationError.
Proof.
  intros X M softmax score head_width m b xs B W. unfold tn_predict. cbn [negb]. destruct (cut_range xs b B) as (starts & PR & CU & _). rewrite PR. cbn [bind].
  destruct (Nat.eqb_spec (head_width 0%nat) (head_width 1%nat)) as [A|A]; destruct (Nat.eqb_spec (head_width 1%nat) (head_width 2%nat)) as [C|C]; cbn [andb negb]; try reflexivity. exfalso. now apply W.
Qed.

(* a concrete fit: rows are numbers, the state counts operations, every head prefers class 1 for odd rows *)
Definition ex_score (w : nat) (_ : nat) (_ : nat) (x : nat) : list Q := (if Nat.odd x then [1; 5] else [5; 1]) ++ repeat 0 (w - 2).
Definition ex_noisy (w m : nat) (j h : nat) (xs : list nat) : (list (list Q) * list (list Q)) * nat := ((map (ex_score w m j) xs, map (ex_score w m h) xs), S m).
Definition ex_learn (m : nat) (_ : nat) (_ : bool) (_ : list nat) (_ : list (list Q)) : nat := S m.
Definition ex_randn (_ : Z) (n k : nat) : list (list Q) := repeat (repeat (-1) k) n.
Definition ex_cfg : config :=
  {| sigma0 := 95 # 100; sigma_os := 25 # 100; sigma_decay := 5 # 100; smear_std := 5 # 100; pool_base := 1; max_rounds := 4; interval := 3; batch := 2;
     init_epochs := 1; train_epochs := 1; des_passes := 2; drop_fraction := 1 # 3; stability_passes := 1 |}.
Definition ex_fit (w : nat) (xu : list nat) (y : list Z) := tn_fit ex_gen (fun _ => 0%nat) ex_randn ex_softmax ex_argmax 0%nat (ex_score w) (ex_noisy w) ex_learn (fun _ => w) ex_cfg [1%Z] [[2%Z]; [3%Z]; [4%Z]] [10; 11]%nat xu y 0 0%nat.
Lemma ex_nets w : (2 <= w)%nat -> nets_ok (fun _ => w) (ex_score w) (ex_noisy w).
Proof.
  intros W. assert (L : forall m h x, length (ex_score w m h x) = w) by (intros m h x; unfold ex_score; rewrite app_length, repeat_length; destruct (Nat.odd x); cbn; lia).
  split; [exact L|]. intros m j h xs. cbn [ex_noisy fst snd]. split; (split; [apply map_length|]); intros r I; apply in_map_iff in I; destruct I as (x & <- & _); apply L.
Qed.
Definition kinds (rs : list (@round nat)) : list (option (nat * list nat)) :=
  map (fun r => match r with Tuned _ => None | Pooled _ pool js => Some (length pool, map (fun j => length (j_rows j)) js) end) rs.
Example C96_ex : exists probs, tn_predict ex_softmax (ex_score 3) (fun _ => 3%nat) true 0%nat 2 [20; 21; 22]%nat = Ok probs /\ length probs = 3%nat /\ (forall x, length (ex_score 3 0 0 x) = 3%nat).
Proof. eexists. split; [vm_compute; reflexivity|]. split; [reflexivity|]. apply (ex_nets 3 ltac:(lia)). Qed.
Example C94_ex : numbers_ok ex_cfg /\ bundles_ok [1%Z] [[2%Z]; [3%Z]; [4%Z]] /\ (forall s n w, table n w (ex_randn s n w)) /\
  (match ex_fit 2 [20; 21; 22; 23; 24]%nat [0; 1]%Z with Ok (init, rounds, _) => length init = 3%nat /\ kinds rounds = [Some (2, [4; 4; 4]); Some (4, [2; 2; 2]); None; Some (5, [7; 7; 7])]%nat | Err _ => False end).
Proof.
  split; [repeat split; cbn; lia || lra|]. split; [exists [2%Z], [3%Z], [4%Z]; split; [reflexivity|]; repeat split; intros x A B; cbn in A, B; lia|].
  split; [intros s n w; split; [apply repeat_length|]; intros r I; apply repeat_spec in I; subst r; apply repeat_length|]. vm_compute. split; reflexivity.
Qed.

(* C94 (refuted): a fit with valid arguments succeeds.  If no labelled row has the last class, heads with the right number of
   outputs end the fit with RuntimeError. *)
Theorem C94_missing_last_class_refuted :
  ~ (forall y, length y = 2%nat -> (forall c, In c y -> (0 <= c < 3)%Z) -> exists r, ex_fit 3 [20; 21; 22; 23; 24]%nat y = Ok r).
Proof. intros H. destruct (H [0; 1]%Z eq_refl) as [r E]; [intros c I; cbn in I; lia|]. vm_compute in E. discriminate E. Qed.
(* C94 (refuted): in an accepted fit a row's target has an entry for each output of its head.  If all labelled rows have class
   0, the target [1] is broadcast: all classes are pushed up alike. *)
Theorem C94_targets_fit_heads_refuted :
  ~ (forall w xu y init rounds m, ex_fit w xu y = Ok (init, rounds, m) -> forall jb, In jb init -> forall t, In t (j_targets jb) -> length t = w).
Proof.
  intros H. destruct (ex_fit 2 [20; 22; 24]%nat [0; 0]%Z) as [[[init rounds] m]|e] eqn:E; [|vm_compute in E; discriminate E].
  specialize (H _ _ _ _ _ _ E). assert (B : forallb (fun jb => forallb (fun t => Nat.eqb (length t) 2) (j_targets jb)) (match ex_fit 2 [20; 22; 24]%nat [0; 0]%Z with Ok (i, _, _) => i | Err _ => [] end) = false) by (vm_compute; reflexivity).
  rewrite E in B. apply Bool.not_true_iff_false in B. apply B. apply forallb_forall. intros jb J. apply forallb_forall. intros t T. apply Nat.eqb_eq. eapply H; eassumption.
Qed.

Print Assumptions C94_fit.
Print Assumptions C94_examples.
Print Assumptions C94_smeared_labels.
Print Assumptions C95_thresholds.
Print Assumptions C96_predict.
Print Assumptions C96_unequal_heads.
Print Assumptions C94_missing_last_class_refuted.
Print Assumptions C94_targets_fit_heads_refuted.
