From Coq Require Import Permutation QArith Lia ZifyBool ZifyNat.
From Verif Require Import Prelude ListFacts SampleServiceProofs DeepBatchModel DeepBatchSpec.
Local Open Scope Z_scope.

Lemma num_batches_enough n b : 0 < n -> 0 < b -> just_enough n b (num_batches n b).
Proof.
  intros N B. unfold just_enough, num_batches.
  assert (1 <= (n + b - 1) / b) by (apply Z.div_le_lower_bound; lia).
  rewrite Z.max_r by lia.
  pose proof (Z.div_mod (n + b - 1) b ltac:(lia)). pose proof (Z.mod_pos_bound (n + b - 1) b B). nia.
Qed.
Lemma just_enough_unique n b k k' : 0 < b -> just_enough n b k -> just_enough n b k' -> k = k'.
Proof. unfold just_enough. intros. nia. Qed.

Lemma py_range_ok n b : 0 < n -> 0 < b ->
  py_range n b = Ok (map (fun k => Z.of_nat k * b) (seq 0 (Z.to_nat (num_batches n b)))).
Proof.
  intros N B. unfold py_range. rewrite (proj2 (Z.eqb_neq b 0)), (proj2 (Z.ltb_ge b 0)) by lia.
  unfold num_batches. assert (1 <= (n + b - 1) / b) by (apply Z.div_le_lower_bound; lia).
  rewrite Z.max_r by lia. reflexivity.
Qed.

(* the batches of one pass *)
Definition pass {A} (b : Z) (l : list A) (k : nat) : list (list A) :=
  map (fun start => slice l start b) (map (fun k => Z.of_nat k * b) (seq 0 k)).
Lemma pass_S {A} b (l : list A) k : pass b l (S k) = pass b l k ++ [slice l (Z.of_nat k * b) b].
Proof. unfold pass. rewrite seq_S, !map_app. reflexivity. Qed.
Lemma pass_length {A} b (l : list A) k : length (pass b l k) = k.
Proof. unfold pass. rewrite !map_length, seq_length. reflexivity. Qed.
Lemma firstn_plus {A} a c (l : list A) : firstn (a + c) l = firstn a l ++ firstn c (skipn a l).
Proof. revert l; induction a as [|a IH]; intros l; [reflexivity|]. destruct l; cbn; [now rewrite firstn_nil|]. now rewrite IH. Qed.
Lemma pass_concat {A} b (l : list A) k : 0 < b -> concat (pass b l k) = firstn (Z.to_nat (Z.of_nat k * b)) l.
Proof.
  intros B. induction k as [|k IH]; [reflexivity|].
  rewrite pass_S, concat_app, IH. cbn [concat]. rewrite app_nil_r. unfold slice.
  replace (Z.to_nat (Z.of_nat (S k) * b)) with (Z.to_nat (Z.of_nat k * b) + Z.to_nat b)%nat by nia.
  now rewrite firstn_plus.
Qed.
Lemma pass_all {A} b (l : list A) : 0 < b -> l <> [] -> concat (pass b l (Z.to_nat (num_batches (lenZ l) b))) = l.
Proof.
  intros B N. rewrite pass_concat by easy. apply firstn_all2.
  assert (0 < lenZ l) by (destruct l; [easy|unfold lenZ; cbn [length]; lia]).
  pose proof (num_batches_enough (lenZ l) b ltac:(lia) B) as E. unfold just_enough, lenZ in *. nia.
Qed.
Lemma pass_In {A} b (l : list A) x k :
  In x (pass b l k) -> exists j, (j < k)%nat /\ x = slice l (Z.of_nat j * b) b.
Proof.
  unfold pass. rewrite map_map. intros H. apply in_map_iff in H. destruct H as (j & <- & I). apply in_seq in I. exists j. split; [lia|reflexivity].
Qed.

Lemma NoDup_firstn {A} k (l : list A) : NoDup l -> NoDup (firstn k l).
Proof. intros H. rewrite <- (firstn_skipn k l) in H. now apply NoDup_app_iff in H. Qed.
Lemma NoDup_skipn {A} k (l : list A) : NoDup l -> NoDup (skipn k l).
Proof. intros H. rewrite <- (firstn_skipn k l) in H. now apply NoDup_app_iff in H. Qed.
Lemma In_firstn {A} k (l : list A) x : In x (firstn k l) -> In x l.
Proof. intros H. rewrite <- (firstn_skipn k l). apply in_or_app. now left. Qed.
Lemma In_skipn {A} k (l : list A) x : In x (skipn k l) -> In x l.
Proof. intros H. rewrite <- (firstn_skipn k l). apply in_or_app. now right. Qed.

Lemma pass_proper n b l : (0 < n)%nat -> 0 < b -> Permutation l (seq 0 n) ->
  Forall (proper_batch n b) (pass b l (Z.to_nat (num_batches (Z.of_nat n) b))).
Proof.
  intros N B P. apply Forall_forall. intros x I. destruct (pass_In _ _ _ _ I) as (j & J & ->).
  assert (L : length l = n) by (rewrite (Permutation_length P), seq_length; reflexivity).
  assert (ND : NoDup l) by (apply (Permutation_NoDup (Permutation_sym P)), seq_NoDup).
  pose proof (num_batches_enough (Z.of_nat n) b ltac:(lia) B) as E. unfold just_enough in E.
  unfold slice. repeat split.
  - intros Z0. apply (f_equal (@length _)) in Z0. rewrite firstn_length, skipn_length in Z0. cbn in Z0.
    assert (Z.of_nat j * b < Z.of_nat n) by nia. lia.
  - unfold lenZ. rewrite firstn_length. lia.
  - now apply NoDup_firstn, NoDup_skipn.
  - intros i H. apply In_firstn, In_skipn in H. apply (Permutation_in _ P) in H. apply in_seq in H. lia.
Qed.

Lemma visits_app i a b : visits i (a ++ b) = visits i a + visits i b.
Proof. unfold visits. rewrite concat_app, count_occ_app. lia. Qed.
Lemma count_once i n l : Permutation l (seq 0 n) -> (i < n)%nat -> count_occ Nat.eq_dec l i = 1%nat.
Proof.
  intros P I. apply NoDup_count_occ'; [apply (Permutation_NoDup (Permutation_sym P)), seq_NoDup|].
  apply (Permutation_in _ (Permutation_sym P)), in_seq. lia.
Qed.

Section Cycle.
Context {St : Type} (G : Gen St) (OK : gen_ok G).
Variables (n : nat) (b : Z).
Hypotheses (N : (0 < n)%nat) (B : 0 < b).
Let k := num_batches (Z.of_nat n) b.

Lemma cycle_pending steps pending s :
  cycle G n b steps pending s =
  if Nat.leb steps (length pending) then Ok (firstn steps pending, s)
  else do ' (rest, s') <- cycle G n b (steps - length pending) [] s; Ok (pending ++ rest, s').
Proof.
  revert steps. induction pending as [|p pending IH]; intros steps.
  - destruct steps; [reflexivity|]. cbn [length Nat.leb]. rewrite Nat.sub_0_r.
    destruct (cycle G n b (S steps) [] s) as [[rest s']|e]; reflexivity.
  - destruct steps; [reflexivity|]. cbn [cycle length Nat.leb Nat.sub]. rewrite IH.
    destruct (Nat.leb steps (length pending)); [reflexivity|].
    destruct (cycle G n b (steps - length pending) [] s) as [[rest s']|e]; reflexivity.
Qed.

Lemma k_pos : 0 < k.
Proof. pose proof (num_batches_enough (Z.of_nat n) b ltac:(lia) B) as E. unfold just_enough in E. unfold k. nia. Qed.

Lemma fresh_ok s : exists l s1, iter_batch_indices G n b s = Ok (pass b l (Z.to_nat k), s1) /\ Permutation l (seq 0 n).
Proof using All.
  unfold iter_batch_indices. pose proof (OK s n) as P. destruct (g_perm G s n) as [l s1]. exists l, s1.
  rewrite py_range_ok by lia. split; [reflexivity|exact P].
Qed.

Lemma cycle_spec steps : forall s, exists bs s', cycle G n b steps [] s = Ok (bs, s') /\ length bs = steps /\
  Forall (proper_batch n b) bs /\ even_use n k (Z.of_nat steps) bs.
Proof using All.
  pose proof k_pos as K.
  induction (Wf_nat.lt_wf steps) as [steps _ IH]. intros s.
  destruct steps as [|m].
  { exists [], s. split; [reflexivity|]. split; [reflexivity|]. split; [constructor|].
    intros i I. change (visits i []) with 0. change (Z.of_nat 0) with 0. rewrite Z.div_0_l by lia. lia. }
  destruct (fresh_ok s) as (l & s1 & E & P).
  pose proof (pass_proper n b l N B P) as PP. fold k in PP.
  assert (LL : lenZ l = Z.of_nat n) by (unfold lenZ; rewrite (Permutation_length P), seq_length; reflexivity).
  assert (CC : concat (pass b l (Z.to_nat k)) = l).
  { unfold k. rewrite <- LL. apply pass_all; [exact B|]. intros ->. unfold lenZ in LL. cbn in LL. lia. }
  pose proof (pass_length b l (Z.to_nat k)) as PL.
  assert (step : cycle G n b (S m) [] s =
                 if Nat.leb (S m) (Z.to_nat k) then Ok (firstn (S m) (pass b l (Z.to_nat k)), s1)
                 else do ' (rest, s') <- cycle G n b (S m - Z.to_nat k) [] s1; Ok (pass b l (Z.to_nat k) ++ rest, s')).
  { pose proof (cycle_pending (S m) (pass b l (Z.to_nat k)) s1) as CP. rewrite PL in CP. rewrite <- CP. cbn [cycle]. rewrite E. cbn [bind].
    destruct (pass b l (Z.to_nat k)) as [|p r] eqn:EP; [cbn in PL; lia|]. reflexivity. }
  rewrite step. destruct (Nat.leb_spec (S m) (Z.to_nat k)) as [L|L].
  - exists (firstn (S m) (pass b l (Z.to_nat k))), s1. split; [reflexivity|].
    split; [rewrite firstn_length; lia|]. split.
    { apply Forall_forall. intros x I. apply In_firstn in I. rewrite Forall_forall in PP. auto. }
    intros i I.
    assert (V : visits i (firstn (S m) (pass b l (Z.to_nat k))) + visits i (skipn (S m) (pass b l (Z.to_nat k))) = 1).
    { rewrite <- visits_app, firstn_skipn. unfold visits. rewrite CC, (count_once i n l P I). reflexivity. }
    assert (0 <= visits i (skipn (S m) (pass b l (Z.to_nat k)))) by (unfold visits; lia).
    assert (0 <= visits i (firstn (S m) (pass b l (Z.to_nat k)))) by (unfold visits; lia).
    destruct (Z.eq_dec (Z.of_nat (S m)) k) as [EK|NK].
    + rewrite EK, Z.div_same by lia.
      rewrite (skipn_all2 (n := S m) (pass b l (Z.to_nat k))) in V by lia. change (visits i []) with 0 in V. lia.
    + rewrite Z.div_small by lia. lia.
  - destruct (IH (S m - Z.to_nat k)%nat ltac:(lia) s1) as (rest & s' & ER & LR & FR & UR).
    rewrite ER. cbn [bind]. eexists _, s'. split; [reflexivity|].
    split; [rewrite app_length, LR, PL; lia|]. split; [apply Forall_app; split; assumption|].
    intros i I. rewrite visits_app.
    assert (visits i (pass b l (Z.to_nat k)) = 1) by (unfold visits; rewrite CC, (count_once i n l P I); reflexivity).
    specialize (UR i I).
    replace (Z.of_nat (S m)) with (Z.of_nat (S m - Z.to_nat k) + 1 * k) by lia.
    rewrite Z.div_add by lia. lia.
Qed.

Lemma epoch_spec epochs steps : 0 <= steps -> forall s, exists es s', epoch_batches G epochs n b steps s = Ok (es, s') /\
  length es = epochs /\
  Forall (fun bs => lenZ bs = steps /\ Forall (proper_batch n b) bs /\ even_use n k steps bs) es.
Proof using All.
  intros S0. induction epochs as [|e IH]; intros s; cbn [epoch_batches].
  - exists [], s. repeat split; constructor.
  - unfold cycle_batch_indices at 1. destruct (cycle_spec (Z.to_nat steps) s) as (bs & s1 & E & L & F & U). rewrite E. cbn [bind].
    destruct (IH s1) as (es & s2 & E2 & L2 & F2). rewrite E2. cbn [bind]. exists (bs :: es), s2.
    split; [reflexivity|]. split; [cbn; lia|]. constructor; [|exact F2].
    rewrite Z2Nat.id in U by lia. split; [unfold lenZ; lia|]. split; assumption.
Qed.
End Cycle.

Lemma combine_fst {A B} (l : list A) (l' : list B) : length l = length l' -> map fst (combine l l') = l.
Proof. revert l'; induction l; destruct l'; cbn; intros; try easy. f_equal. apply IHl. lia. Qed.
Lemma combine_snd {A B} (l : list A) (l' : list B) : length l = length l' -> map snd (combine l l') = l'.
Proof. revert l'; induction l; destruct l'; cbn; intros; try easy. f_equal. apply IHl. lia. Qed.

Lemma fit_batches_spec {St} (G : Gen St) n_l n_u b max_epochs sl su :
  gen_ok G ->
  match fit_batches G n_l n_u b max_epochs sl su with
  | Ok epochs =>
      (0 < n_l)%nat /\ (0 < n_u)%nat /\ 0 < b /\ 0 < max_epochs /\ lenZ epochs = max_epochs /\
      exists k_l k_u, just_enough (Z.of_nat n_l) b k_l /\ just_enough (Z.of_nat n_u) b k_u /\
      Forall (fun e => lenZ e = Z.max k_l k_u /\
                       Forall (proper_batch n_l b) (map fst e) /\ even_use n_l k_l (Z.max k_l k_u) (map fst e) /\
                       Forall (proper_batch n_u b) (map snd e) /\ even_use n_u k_u (Z.max k_l k_u) (map snd e)) epochs
  | Err e => e = InductiveValidationError /\ ~ ((0 < n_l)%nat /\ (0 < n_u)%nat /\ 0 < b /\ 0 < max_epochs)
  end.
Proof.
  intros OK. unfold fit_batches.
  destruct ((Z.of_nat n_l =? 0) || (Z.of_nat n_u =? 0)) eqn:E1; [split; [reflexivity|lia]|].
  destruct (b <=? 0) eqn:E2; [split; [reflexivity|lia]|].
  destruct (max_epochs <=? 0) eqn:E3; [split; [reflexivity|lia]|].
  assert (NL : (0 < n_l)%nat) by lia. assert (NU : (0 < n_u)%nat) by lia. assert (B : 0 < b) by lia.
  set (steps := steps_per_epoch (Z.of_nat n_l) (Z.of_nat n_u) b).
  pose proof (k_pos n_l b NL B) as KL. pose proof (k_pos n_u b NU B) as KU.
  assert (S0 : 0 <= steps) by (unfold steps, steps_per_epoch; lia).
  destruct (epoch_spec G OK n_l b NL B (Z.to_nat max_epochs) steps S0 sl) as (ls & s1 & EL & LL & FL).
  destruct (epoch_spec G OK n_u b NU B (Z.to_nat max_epochs) steps S0 su) as (us & s2 & EU & LU & FU).
  rewrite EL. cbn [bind]. rewrite EU. cbn [bind].
  split; [exact NL|]. split; [exact NU|]. split; [exact B|]. split; [lia|].
  split; [unfold lenZ; rewrite map_length, combine_length; lia|].
  exists (num_batches (Z.of_nat n_l) b), (num_batches (Z.of_nat n_u) b).
  split; [apply num_batches_enough; lia|]. split; [apply num_batches_enough; lia|].
  fold (steps_per_epoch (Z.of_nat n_l) (Z.of_nat n_u) b). fold steps.
  apply Forall_forall. intros e I. apply in_map_iff in I. destruct I as ([l u] & <- & I). cbn [fst snd].
  pose proof (in_combine_l _ _ _ _ I) as Il. pose proof (in_combine_r _ _ _ _ I) as Iu.
  rewrite Forall_forall in FL, FU. destruct (FL _ Il) as (A1 & A2 & A3). destruct (FU _ Iu) as (C1 & C2 & C3).
  assert (length l = length u) by (unfold lenZ in *; lia).
  rewrite combine_fst, combine_snd by assumption.
  split; [unfold lenZ in *; rewrite combine_length; lia|]. repeat split; try assumption; try apply A3; try apply C3; assumption.
Qed.

(* ---- rows and labels *)
Lemma rows_pairs {X} (dx : X) xs ys idx : length xs = length ys ->
  combine (rows xs idx dx) (rows ys idx 0) = map (fun i => nth i (combine xs ys) (dx, 0)) idx.
Proof. intros L. unfold rows. induction idx as [|i r IH]; [reflexivity|]. cbn. rewrite IH, combine_nth by exact L. reflexivity. Qed.

Lemma cycle_batches_spec {St X} (G : Gen St) (dx : X) xs ys b steps s :
  gen_ok G -> length xs = length ys -> xs <> [] -> 0 < b -> 0 <= steps ->
  exists out s', cycle_batches G dx xs ys b steps s = Ok (out, s') /\ lenZ out = steps /\
    (forall o, In o out -> length (fst o) = length (snd o) /\ fst o <> [] /\ lenZ (fst o) <= b /\
                           forall p, In p (pairs o) -> In p (combine xs ys)) /\
    (lenZ xs <= steps * b -> forall p, In p (combine xs ys) -> exists o, In o out /\ In p (pairs o)).
Proof.
  intros OK L N B S0. unfold cycle_batches.
  assert (N' : (0 < length xs)%nat) by (destruct xs; [easy|cbn; lia]).
  destruct (lenZ xs <=? 0) eqn:E; [unfold lenZ in E; lia|].
  unfold cycle_batch_indices. destruct (cycle_spec G OK (length xs) b N' B (Z.to_nat steps) s) as (bs & s' & EC & LC & FC & UC).
  rewrite EC. cbn [bind]. eexists _, s'. split; [reflexivity|]. split; [unfold lenZ; rewrite map_length; lia|]. split.
  - intros o I. apply in_map_iff in I. destruct I as (i & <- & I). cbn [fst snd]. rewrite Forall_forall in FC. destruct (FC i I) as (P1 & P2 & _ & P4).
    unfold rows at 1 2. rewrite !map_length. split; [reflexivity|].
    split; [intros H; apply P1; unfold rows in H; now destruct i|].
    split; [unfold lenZ, rows; rewrite map_length; exact P2|].
    intros p IP. unfold pairs in IP. cbn [fst snd] in IP. rewrite rows_pairs in IP by exact L.
    apply in_map_iff in IP. destruct IP as (j & <- & J). apply nth_In. rewrite combine_length. specialize (P4 j J). lia.
  - intros SB p IP. destruct (In_nth _ _ (dx, 0) IP) as (j & J & <-). rewrite combine_length in J.
    assert (J' : (j < length xs)%nat) by lia.
    specialize (UC j J'). rewrite Z2Nat.id in UC by lia.
    pose proof (num_batches_enough (Z.of_nat (length xs)) b ltac:(lia) B) as JE. unfold just_enough in JE.
    assert (1 <= steps / num_batches (Z.of_nat (length xs)) b).
    { apply Z.div_le_lower_bound; [nia|]. unfold lenZ in SB. nia. }
    assert (V : (count_occ Nat.eq_dec (concat bs) j > 0)%nat) by (unfold visits in UC; lia).
    apply count_occ_In in V. apply in_concat in V. destruct V as (i & I1 & I2).
    exists (rows xs i dx, rows ys i 0). split; [apply in_map_iff; exists i; split; [reflexivity|exact I1]|].
    unfold pairs. cbn [fst snd]. rewrite rows_pairs by exact L. apply in_map_iff. exists j. split; [reflexivity|exact I2].
Qed.

(* ---- prediction *)
Lemma predict_loop_spec {X R} (call : bool -> list X -> option (list R)) f xs b starts :
  row_wise call f -> predict_loop call xs b starts = Ok (map f (concat (map (fun st => slice xs st b) starts))).
Proof.
  intros W. induction starts as [|st r IH]; [reflexivity|]. cbn [predict_loop map concat]. rewrite W, IH. cbn [bind]. now rewrite map_app.
Qed.
Lemma predict_spec {X R P} (call : bool -> list X -> option (list R)) (softmax : R -> P) f training xs b :
  row_wise call f -> 0 < b -> predict_proba call softmax true training xs b = (Ok (map (fun x => softmax (f x)) xs), training).
Proof.
  intros W B. unfold predict_proba. cbn [negb].
  destruct xs as [|x r].
  - unfold py_range. rewrite (proj2 (Z.eqb_neq b 0)), (proj2 (Z.ltb_ge b 0)) by lia. unfold lenZ. cbn [length Z.of_nat].
    rewrite Z.div_small by lia. reflexivity.
  - rewrite py_range_ok by (try exact B; unfold lenZ; cbn [length]; lia). rewrite (predict_loop_spec call f) by exact W.
    change (map (fun st => slice (x :: r) st b) (map (fun k => Z.of_nat k * b) (seq 0 (Z.to_nat (num_batches (lenZ (x :: r)) b)))))
      with (pass b (x :: r) (Z.to_nat (num_batches (lenZ (x :: r)) b))).
    rewrite pass_all by easy. now rewrite map_map.
Qed.

(* ---- graphs *)
Lemma position_spec i idx a : position i idx = Some a -> nth_error idx a = Some i.
Proof.
  revert a. induction idx as [|j r IH]; cbn; intros a; [easy|]. destruct (Nat.eqb_spec i j) as [->|Ne].
  - intros H. injection H as <-. reflexivity.
  - destruct (position i r); [|easy]. intros H. injection H as <-. cbn. auto.
Qed.
Lemma position_complete i idx a : NoDup idx -> nth_error idx a = Some i -> position i idx = Some a.
Proof.
  revert a. induction idx as [|j r IH]; intros a ND H; [now destruct a|]. inversion ND as [|? ? NI ND']; subst.
  destruct a as [|a]; cbn in H.
  - injection H as ->. cbn. now rewrite Nat.eqb_refl.
  - cbn. destruct (Nat.eqb_spec i j) as [->|Ne]; [exfalso; apply NI; eapply nth_error_In; exact H|]. now rewrite (IH a ND' H).
Qed.
Lemma subgraph_In idx es a b : NoDup idx ->
  (In (a, b) (subgraph idx es) <-> exists i j, nth_error idx a = Some i /\ nth_error idx b = Some j /\ In (i, j) es).
Proof.
  intros ND. unfold subgraph. rewrite in_flat_map. split.
  - intros ([i j] & I & H). cbn [fst snd] in H. destruct (position i idx) as [a'|] eqn:Pa; [|easy]. destruct (position j idx) as [b'|] eqn:Pb; [|easy].
    destruct H as [H|[]]. injection H as -> ->. exists i, j. auto using position_spec.
  - intros (i & j & Ha & Hb & I). exists (i, j). split; [exact I|]. cbn [fst snd].
    rewrite (position_complete i idx a ND Ha), (position_complete j idx b ND Hb). now left.
Qed.

Lemma offset_edges_length {X} (gs : list (graph X)) off : length (offset_edges off gs) = length (flat_map gedges gs).
Proof. revert off. induction gs as [|g r IH]; intros off; [reflexivity|]. cbn. rewrite !app_length, map_length, IH. reflexivity. Qed.
Lemma offset_edges_nth {X} (pre : list (graph X)) g post off k a b :
  nth_error (gedges g) k = Some (a, b) ->
  nth_error (offset_edges off (pre ++ g :: post)) (length (flat_map gedges pre) + k) =
    Some ((a + (off + length (flat_map gx pre)), b + (off + length (flat_map gx pre))))%nat.
Proof.
  revert off. induction pre as [|p r IH]; intros off H; cbn [app offset_edges flat_map length].
  - rewrite nth_error_app1 by (rewrite map_length; apply nth_error_Some; cbn [Nat.add]; congruence).
    cbn [Nat.add]. rewrite nth_error_map, H. cbn. now rewrite Nat.add_0_r.
  - rewrite nth_error_app2; rewrite map_length, app_length; [|lia].
    replace (length (gedges p) + length (flat_map gedges r) + k - length (gedges p))%nat with (length (flat_map gedges r) + k)%nat by lia.
    rewrite IH by exact H. rewrite app_length. f_equal. f_equal; lia.
Qed.
Lemma offset_edges_inv {X} (gs : list (graph X)) off k a b :
  nth_error (offset_edges off gs) k = Some (a, b) ->
  exists pre g post k' a' b', gs = pre ++ g :: post /\ k = (length (flat_map gedges pre) + k')%nat /\
    nth_error (gedges g) k' = Some (a', b') /\
    a = (a' + (off + length (flat_map gx pre)))%nat /\ b = (b' + (off + length (flat_map gx pre)))%nat.
Proof.
  revert off k. induction gs as [|g r IH]; intros off k H; [now destruct k|]. cbn [offset_edges] in H.
  destruct (Nat.lt_ge_cases k (length (gedges g))) as [L|L].
  - rewrite nth_error_app1 in H by (rewrite map_length; lia). rewrite nth_error_map in H.
    destruct (nth_error (gedges g) k) as [[a' b']|] eqn:E; [|easy]. cbn in H. injection H as <- <-.
    exists [], g, r, k, a', b'. cbn. repeat split; try easy; lia.
  - rewrite nth_error_app2 in H by (rewrite map_length; lia). rewrite map_length in H.
    destruct (IH _ _ H) as (pre & g0 & post & k' & a' & b' & -> & K & E & -> & ->).
    exists (g :: pre), g0, post, k', a', b'. cbn [app flat_map]. rewrite !app_length. repeat split; try easy; lia.
Qed.

Lemma subgraph_back idx es :
  map (fun e => (nth (fst e) idx O, nth (snd e) idx O)) (subgraph idx es) =
  filter (fun e => existsb (Nat.eqb (fst e)) idx && existsb (Nat.eqb (snd e)) idx) es.
Proof.
  assert (PE : forall i, existsb (Nat.eqb i) idx = match position i idx with Some _ => true | None => false end).
  { intros i. induction idx as [|j r IH]; [reflexivity|]. cbn. destruct (Nat.eqb i j); [reflexivity|]. cbn. rewrite IH. now destruct (position i r). }
  induction es as [|[i j] r IH]; [reflexivity|].
  unfold subgraph. cbn [flat_map filter fst snd]. rewrite map_app. fold (subgraph idx r). rewrite IH, !PE.
  destruct (position i idx) as [a|] eqn:Pa; [|reflexivity]. destruct (position j idx) as [b|] eqn:Pb; [|reflexivity].
  cbn. rewrite (nth_error_nth _ _ _ (position_spec _ _ _ Pa)), (nth_error_nth _ _ _ (position_spec _ _ _ Pb)). reflexivity.
Qed.

Lemma position_seq i n s : (s <= i < s + n)%nat -> position i (seq s n) = Some (i - s)%nat.
Proof.
  intros H. apply position_complete; [apply seq_NoDup|].
  rewrite (nth_error_nth' _ O) by (rewrite seq_length; lia). rewrite seq_nth by lia. f_equal. lia.
Qed.
Lemma subgraph_all n es : (forall a b, In (a, b) es -> (a < n)%nat /\ (b < n)%nat) -> subgraph (seq 0 n) es = es.
Proof.
  intros H. unfold subgraph. induction es as [|[a b] r IH]; [reflexivity|].
  cbn [flat_map fst snd]. destruct (H a b (or_introl eq_refl)).
  rewrite !position_seq by lia. rewrite IH by (intros; apply H; now right). rewrite !Nat.sub_0_r. reflexivity.
Qed.
Lemma nth_all {A} (d : A) l : map (fun i => nth i l d) (seq 0 (length l)) = l.
Proof. induction l as [|x r IH]; [reflexivity|]. cbn [length seq map nth]. rewrite <- seq_shift, map_map. cbn [nth]. now rewrite IH. Qed.
Lemma slice_all {X} (dx : X) g : graph_ok g -> slice_graph dx g (seq 0 (length (gx g))) = g.
Proof.
  intros (H & W). unfold slice_graph. rewrite nth_all, subgraph_all by exact H.
  destruct g as [x e [w|]]; cbn in *; [|reflexivity].
  destruct (Nat.eqb_spec (length w) (length x)) as [E|]; [|reflexivity]. rewrite <- E, nth_all. reflexivity.
Qed.
Lemma predict_graph_whole {X R P} (call : graph X -> list R) (softmax : R -> P) dx g b :
  graph_ok g -> gx g <> [] -> lenZ (gx g) <= b -> predict_graph call softmax dx g b = Ok (map softmax (call g)).
Proof.
  intros GO N L. unfold predict_graph.
  assert (L0 : 0 < lenZ (gx g)) by (destruct (gx g); [easy|unfold lenZ; cbn [length]; lia]).
  rewrite py_range_ok by lia.
  assert (num_batches (lenZ (gx g)) b = 1) as ->.
  { apply (just_enough_unique (lenZ (gx g)) b); [lia|apply num_batches_enough; lia|unfold just_enough; lia]. }
  change (Z.to_nat 1) with 1%nat. cbn [bind seq map flat_map]. rewrite app_nil_r. unfold slice.
  cbn [Z.of_nat Z.mul Z.to_nat skipn]. rewrite firstn_all2 by (rewrite seq_length; unfold lenZ in L; lia).
  now rewrite slice_all.
Qed.


Definition weights_of {X} (gs : list (graph X)) := flat_map (fun g => match gweight g with Some w => [w] | None => [] end) gs.
Lemma weights_of_app {X} (a b : list (graph X)) : weights_of (a ++ b) = weights_of a ++ weights_of b.
Proof. apply flat_map_app. Qed.
Lemma weights_length {X} (gs : list (graph X)) : Forall graph_ok gs -> all_weighted gs ->
  length (concat (weights_of gs)) = length (flat_map gedges gs).
Proof.
  intros F A. induction gs as [|g r IH]; [reflexivity|]. inversion F as [|? ? [_ W] F']; subst. inversion A as [|? ? N A']; subst.
  unfold weights_of. cbn [flat_map]. fold (weights_of r). rewrite concat_app, !app_length, IH by assumption.
  destruct (gweight g) as [w|]; [|easy]. cbn. rewrite app_nil_r, W. reflexivity.
Qed.
Lemma none_weights {X} (gs : list (graph X)) : none_weighted gs -> weights_of gs = [].
Proof. intros A. induction A as [|g r E _ IH]; [reflexivity|]. unfold weights_of. cbn. rewrite E. exact IH. Qed.

Lemma concat_weights_nth {X} (pre : list (graph X)) g post k w :
  Forall graph_ok (pre ++ g :: post) -> all_weighted (pre ++ g :: post) -> gweight g = Some w -> (k < length (gedges g))%nat ->
  nth_error (concat (weights_of (pre ++ g :: post))) (length (flat_map gedges pre) + k) = nth_error w k.
Proof.
  intros F A E K. apply Forall_app in F, A. destruct F as [F1 F2], A as [A1 A2].
  rewrite weights_of_app, concat_app, <- (weights_length pre) by assumption.
  rewrite nth_error_app2 by lia. replace (_ + k - _)%nat with k by lia.
  unfold weights_of. cbn [flat_map]. rewrite E. cbn [app concat].
  inversion F2 as [|? ? [_ W] _]; subst. rewrite E in W. apply nth_error_app1. lia.
Qed.

Lemma concat_spec {X} (gs : list (graph X)) a b w :
  Forall graph_ok gs -> all_weighted gs \/ none_weighted gs ->
  (weighted_edge (concat_graphs gs) a b w <->
   exists pre g post a' b', gs = pre ++ g :: post /\ weighted_edge g a' b' w /\
     a = (a' + length (flat_map gx pre))%nat /\ b = (b' + length (flat_map gx pre))%nat).
Proof.
  intros F A. unfold weighted_edge, concat_graphs. cbn [gedges gweight]. fold (weights_of gs). split.
  - intros (k & E & W). destruct (offset_edges_inv _ _ _ _ _ E) as (pre & g & post & k' & a' & b' & -> & -> & E' & -> & ->).
    exists pre, g, post, a', b'. split; [reflexivity|]. split; [|split; lia]. exists k'. split; [exact E'|].
    destruct A as [A|A].
    + assert (gweight g <> None) as G by (apply Forall_app in A; destruct A as [_ A]; now inversion A).
      destruct (gweight g) as [wg|] eqn:EG; [|easy].
      assert (K : (k' < length (gedges g))%nat) by (apply nth_error_Some; congruence).
      rewrite <- (concat_weights_nth pre g post k' wg F A EG K).
      destruct (weights_of (pre ++ g :: post)) as [|x r] eqn:EW; [|exact W].
      rewrite weights_of_app in EW. unfold weights_of in EW at 2. cbn in EW. rewrite EG in EW. destruct (weights_of pre); discriminate EW.
    + rewrite none_weights in W by exact A. apply Forall_app in A. destruct A as [_ A]. pose proof (Forall_inv A) as G. cbn beta in G. rewrite G. exact W.
  - intros (pre & g & post & a' & b' & -> & (k & E & W) & -> & ->).
    exists (length (flat_map gedges pre) + k)%nat. split; [rewrite (offset_edges_nth pre g post 0 k a' b' E); reflexivity|].
    destruct A as [A|A].
    + destruct (gweight g) as [wg|] eqn:EG.
      * assert (K : (k < length (gedges g))%nat) by (apply nth_error_Some; congruence).
        pose proof (concat_weights_nth pre g post k wg F A EG K) as C.
        destruct (weights_of (pre ++ g :: post)) as [|x r] eqn:EW.
        { rewrite weights_of_app in EW. unfold weights_of in EW at 2. cbn in EW. rewrite EG in EW. destruct (weights_of pre); discriminate EW. }
        rewrite C. exact W.
      * exfalso. apply Forall_app in A. destruct A as [_ A]. inversion A; subst. contradiction.
    + rewrite none_weights by exact A. apply Forall_app in A. destruct A as [_ A]. inversion A as [|? ? G _]; subst. rewrite G in W. exact W.
Qed.
