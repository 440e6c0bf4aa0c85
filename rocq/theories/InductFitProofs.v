(* The fit methods as a whole, what their histories imply for rows and labels, and reference sorts
   showing that the contracts can be met. *)
From Coq Require Import List ZArith Lia Bool QArith Permutation Sorted Lqa ZifyBool ZifyNat.
From Verif Require Import Prelude ListFacts QFacts InductModel InductSpec InductProofs InductLoopProofs InductSelfProofs InductCoProofs.
Import ListNotations.
Open Scope Z_scope.

(* ----- rows are conserved ----- *)
Lemma last_nth {A} (l : list A) e : last l e = nth (length l - 1) l e.
Proof.
  induction l as [|a l IH]; [reflexivity|]. destruct l as [|b l]; [reflexivity|].
  change (last (a :: b :: l) e) with (last (b :: l) e). rewrite IH. cbn [length]. 
  replace (S (S (length l)) - 1)%nat with (S (S (length l) - 1)) by lia. reflexivity.
Qed.

Lemma taken_untaken_perm n tk : NoDup tk -> (forall i, In i tk -> (i < n)%nat) ->
  Permutation (seq 0 n) (tk ++ untaken n tk).
Proof.
  intros N R. apply NoDup_Permutation; [apply seq_NoDup| |].
  - apply NoDup_app_iff. split; [exact N|]. split.
    + apply StronglySorted_lt_NoDup, untaken_sorted.
    + intros i H1 H2. apply untaken_In in H2. tauto.
  - intros i. rewrite in_seq, in_app_iff, untaken_In. split.
    + intros H. destruct (in_dec Nat.eq_dec i tk); [now left|right; split; [lia|assumption]].
    + intros [H|[H _]]; [apply R in H; lia|lia].
Qed.

Lemma moves_conserve {X} (d : X) mi Xl yl Xu bs fits left :
  moves_rows_once d mi Xl yl Xu bs fits left ->
  Permutation (Xl ++ Xu) (fst (last fits ([], [])) ++ left) /\
  (forall X' y', In (X', y') fits -> exists Xp yp, X' = Xl ++ Xp /\ y' = yl ++ yp /\ length Xp = length yp /\ incl Xp Xu) /\
  (length fits <= mi + 1)%nat.
Proof.
  intros (N & R & L & B1 & B2 & F). split; [|split; [|lia]].
  - rewrite last_nth, F by lia. rewrite Nat.min_r by lia. unfold training_set. cbn [fst]. rewrite L, <- app_assoc.
    apply Permutation_app_head. unfold pool_after, pool_positions, at_positions. rewrite firstn_all, <- map_app.
    rewrite <- (map_nth_seq Xu d) at 1. apply Permutation_map. now apply taken_untaken_perm.
  - intros X' y' H. apply (In_nth _ _ ([], [])) in H. destruct H as (k & Lk & E). rewrite F in E by exact Lk.
    unfold training_set in E. injection E as E1 E2. do 2 eexists. split; [symmetry; exact E1|]. split; [symmetry; exact E2|].
    split.
    + rewrite at_positions_length. unfold taken_rows. rewrite !map_length. reflexivity.
    + intros x Hx. unfold at_positions in Hx. apply in_map_iff in Hx. destruct Hx as (i & <- & Hi). apply nth_In, R.
      unfold taken_rows in *. apply in_map_iff in Hi. destruct Hi as (p & E & Hp). apply in_map_iff. exists p. split; [exact E|].
      apply in_concat in Hp. destruct Hp as (b & Hb & Hp). apply in_concat. exists b. split; [|exact Hp].
      rewrite <- (firstn_skipn (Nat.min k (length bs)) bs). apply in_or_app. now left.
Qed.

(* ----- self-training ----- *)
Section SelfTrainingFit.
Context {X M : Type}.
Variable d : X.
Variable fit : nat -> list X -> list Z -> M.
Variable scores : M -> list X -> list (list Q).
Variable predict : M -> list X -> list Z.

Lemma self_training_fit_spec sp group_u group_l Xl yl Xu r :
  (forall m rs, length (scores m rs) = length rs) ->
  (forall m, st_max_new sp = Some m -> 0 <= m) ->
  (forall g, group_u = Some g -> length g = length Xu) ->
  (forall g, group_l = Some g -> length g = length Xl) -> length yl = length Xl ->
  self_training_fit d fit scores predict sp group_u group_l Xl yl Xu = Ok r ->
  let groups := match st_use_group sp with Some false => None | _ => group_u end in
  exists bs,
    moves_rows_once d (Z.to_nat (st_max_iter sp)) Xl yl Xu bs (calls r) (leftover r) /\
    (forall k, (k < length bs)%nat ->
       self_training_round d fit scores predict Xl yl Xu bs (st_thr sp) (st_max_new sp) (st_min_new sp)
         (st_min_count sp) (st_min_fraction sp) (group_threshold sp) groups group_l k) /\
    self_training_stop d fit scores predict Xl yl Xu bs (Z.to_nat (st_max_iter sp)) (st_thr sp)
      (st_max_new sp) (st_min_new sp) (st_min_count sp) (st_min_fraction sp) (group_threshold sp) groups group_l.
Proof.
  intros SL Hm Hgu Hgl Hyl H groups. unfold self_training_fit in H.
  destruct (st_min_count sp <? 1) eqn:E1; [discriminate|]. destruct (negb _) eqn:E2 in H; [discriminate|].
  destruct Xu as [|x Xu'] eqn:EXu.
  - injection H as <-. exists []. cbn [calls leftover]. split; [|split].
    + pose proof (inv_stop0 d Xl yl [] [] [] Xl yl [] (Z.to_nat (st_max_iter sp)) (inv_init d Xl yl [])) as S.
      apply S. cbn. lia.
    + intros k Hk. cbn in Hk. lia.
    + right. left. reflexivity.
  - rewrite <- EXu in *. destruct Xl as [|x0 Xl'] eqn:EXl; [discriminate|]. rewrite <- EXl in *.
    set (ug := match st_use_group sp with Some b => b | None => match group_u with Some _ => true | None => false end end) in H.
    destruct (ug && match group_u with Some _ => false | None => true end) eqn:E3; [discriminate|].
    assert (Eg : (if ug then group_u else None) = groups).
    { unfold ug, groups. destruct (st_use_group sp) as [[|]|]; [reflexivity|reflexivity|]. destruct group_u; reflexivity. }
    rewrite Eg in H.
    assert (C : 1 <= st_min_count sp) by lia.
    assert (G : forall g, groups = Some g -> length g = length Xu).
    { unfold groups. intros g Hg. destruct (st_use_group sp) as [[|]|]; [auto|discriminate|auto]. }
    assert (Gl : forall gl, group_l = Some gl -> (length gl <= length yl)%nat).
    { intros gl Hg. specialize (Hgl gl Hg). lia. }
    destruct (self_training_loop_spec d fit scores predict Xl yl Xu sp group_l SL C Hm Gl groups (Z.to_nat (st_max_iter sp)) G
      [] [] Xl yl Xu groups r (inv_init d Xl yl Xu)) as (bs & A & B & D).
    + destruct groups as [g|] eqn:Egr; [|reflexivity]. cbn [option_map]. f_equal. symmetry.
      unfold pool_positions. cbn [firstn length]. rewrite <- (G g eq_refl). apply at_positions_all.
    + intros k Hk. cbn in Hk. lia.
    + exact H.
    + exists bs. split; [exact A|]. split; [exact B|exact D].
Qed.

Lemma select_candidates_ok sp scs pred gu gl yl : (forall r, In r scs -> r <> []) ->
  exists v, select_candidates sp scs pred gu gl yl = Ok v.
Proof.
  intros H. destruct (row_maxima_ok _ H) as [c E]. unfold select_candidates. rewrite E. cbn [bind]. eauto.
Qed.

Lemma self_training_loop_ok sp group_l : (forall m rs r, In r (scores m rs) -> r <> []) ->
  forall fuel done Xl yl Xu gu, exists r, self_training_loop d fit scores predict sp group_l fuel done Xl yl Xu gu = Ok r.
Proof.
  intros S. induction fuel as [|f IH]; intros done Xl yl Xu gu; cbn [self_training_loop]; [eauto|].
  destruct Xu as [|x Xu]; [eauto|].
  destruct (select_candidates_ok sp (scores (fit (length done) Xl yl) (x :: Xu)) (predict (fit (length done) Xl yl) (x :: Xu)) gu group_l yl (S _ _)) as [[idx labels] ->].
  cbn [bind]. destruct (lenZ idx <? st_min_new sp); [eauto|]. apply IH.
Qed.

Lemma self_training_fit_ok sp group_u group_l Xl yl Xu :
  (forall m rs r, In r (scores m rs) -> r <> []) ->
  1 <= st_min_count sp -> (0 <= st_min_fraction sp <= 1)%Q -> Xl <> [] ->
  (st_use_group sp = Some true -> group_u <> None) ->
  exists r, self_training_fit d fit scores predict sp group_u group_l Xl yl Xu = Ok r.
Proof.
  intros S C [F1 F2] NE G. unfold self_training_fit.
  destruct (st_min_count sp <? 1) eqn:E1; [lia|].
  apply Qle_bool_iff in F1. apply Qle_bool_iff in F2. rewrite F1, F2. cbn [andb negb].
  destruct Xu as [|x Xu]; [eauto|]. destruct Xl as [|x0 Xl]; [congruence|].
  destruct (st_use_group sp) as [[|]|]; cbn [andb].
  - destruct group_u; [|exfalso; now apply G]. cbn [andb]. now apply self_training_loop_ok.
  - now apply self_training_loop_ok.
  - destruct group_u; cbn [andb]; now apply self_training_loop_ok.
Qed.

Variable argsort : list Q -> list nat.
Lemma pseudo_label_loop_ok thr max_new min_new : (forall m rs r, In r (scores m rs) -> r <> []) ->
  forall fuel done Xl yl Xu, exists r, pseudo_label_loop d fit scores predict argsort thr max_new min_new fuel done Xl yl Xu = Ok r.
Proof.
  intros S. induction fuel as [|f IH]; intros done Xl yl Xu; cbn [pseudo_label_loop]; [eauto|].
  destruct Xu as [|x Xu]; [eauto|]. unfold select_confident.
  destruct (row_maxima_ok _ (S (fit (length done) Xl yl) (x :: Xu))) as [c ->].
  cbn [bind]. match goal with |- context [if ?b then _ else _] => destruct b end; [eauto|]. apply IH.
Qed.

Lemma pseudo_label_fit_ok max_iter thr max_new min_new Xl yl Xu :
  (forall m rs r, In r (scores m rs) -> r <> []) -> Xl <> [] ->
  exists r, pseudo_label_fit d fit scores predict argsort max_iter thr max_new min_new Xl yl Xu = Ok r.
Proof.
  intros S NE. unfold pseudo_label_fit. destruct Xu; [eauto|]. destruct Xl; [congruence|]. now apply pseudo_label_loop_ok.
Qed.
End SelfTrainingFit.

(* ----- reference sorts ----- *)
Fixpoint ins_pos (keys : list Q) (i : nat) (l : list nat) : list nat :=
  match l with
  | [] => [i]
  | j :: l' => if Qle_bool (nth i keys 0%Q) (nth j keys 0%Q) then i :: j :: l' else j :: ins_pos keys i l'
  end.
Definition ref_argsortQ (keys : list Q) : list nat := fold_right (ins_pos keys) [] (seq 0 (length keys)).
Definition ref_topk (keys : list Q) (k : nat) : list nat := firstn k (rev (ref_argsortQ keys)).

Lemma ins_pos_perm keys i l : Permutation (ins_pos keys i l) (i :: l).
Proof.
  induction l as [|j l IH]; cbn; [reflexivity|]. destruct (Qle_bool _ _); [reflexivity|].
  etransitivity; [apply perm_skip, IH|]. apply perm_swap.
Qed.

Definition le_key (keys : list Q) (i j : nat) : Prop := (nth i keys 0 <= nth j keys 0)%Q.
Lemma ins_pos_sorted keys i l : StronglySorted (le_key keys) l -> StronglySorted (le_key keys) (ins_pos keys i l).
Proof.
  induction l as [|j l IH]; intros H; cbn; [repeat constructor|].
  inversion H as [|? ? Hs Hf]; subst. destruct (Qle_bool _ _) eqn:E.
  - apply Qle_bool_iff in E. constructor; [exact H|]. constructor; [exact E|].
    rewrite Forall_forall in *. intros k Hk. specialize (Hf k Hk). unfold le_key in *. eapply Qle_trans; eauto.
  - constructor; [now apply IH|]. rewrite Forall_forall in *. intros k Hk.
    apply (Permutation_in _ (ins_pos_perm keys i l)) in Hk. destruct Hk as [<-|Hk]; [|auto].
    unfold le_key. assert (~ (nth i keys 0 <= nth j keys 0)%Q) by (rewrite <- Qle_bool_iff; congruence). lra.
Qed.

Lemma fold_ins_perm keys l : Permutation (fold_right (ins_pos keys) [] l) l.
Proof. induction l; cbn; [reflexivity|]. etransitivity; [apply ins_pos_perm|]. now constructor. Qed.

Lemma ref_argsortQ_sorts : sorts_positions ref_argsortQ.
Proof.
  intros keys. split; [apply fold_ins_perm|].
  assert (S : StronglySorted (le_key keys) (ref_argsortQ keys)).
  { unfold ref_argsortQ. generalize (seq 0 (length keys)). intros l. induction l; cbn; [constructor|now apply ins_pos_sorted]. }
  intros i j H. assert (L : length (ref_argsortQ keys) = length keys).
  { unfold ref_argsortQ. rewrite (Permutation_length (fold_ins_perm _ _)). apply seq_length. }
  revert i j H. rewrite <- L. generalize (ref_argsortQ keys) S. clear. intros l S.
  induction S as [|a l S IH F]; intros i j H; [cbn in H; lia|].
  destruct i, j; cbn [nth length] in *; try lia.
  - rewrite Forall_forall in F. apply F, nth_In. lia.
  - apply IH. lia.
Qed.

Lemma ref_topk_picks : picks_largest ref_topk.
Proof.
  intros keys k Hk. pose proof (ref_argsortQ_sorts keys) as [P S].
  assert (L : length (ref_argsortQ keys) = length keys) by (rewrite (Permutation_length P); apply seq_length).
  assert (N : NoDup (rev (ref_argsortQ keys))).
  { apply NoDup_rev. eapply Permutation_NoDup; [symmetry; exact P|apply seq_NoDup]. }
  unfold ref_topk. split; [rewrite firstn_length, rev_length; lia|].
  rewrite <- (firstn_skipn k (rev (ref_argsortQ keys))) in N. apply NoDup_app_iff in N. destruct N as (N1 & _ & N3).
  split; [exact N1|]. 
  assert (I : forall i, In i (rev (ref_argsortQ keys)) <-> (i < length keys)%nat).
  { intros i. rewrite <- in_rev. split; intros H.
    - apply (Permutation_in _ P) in H. apply in_seq in H. lia.
    - apply (Permutation_in _ (Permutation_sym P)). apply in_seq. lia. }
  split.
  - intros i Hi. apply I. rewrite <- (firstn_skipn k). apply in_or_app. now left.
  - intros i j Hi Hj Hn. apply I in Hj. rewrite <- (firstn_skipn k) in Hj. apply in_app_or in Hj. destruct Hj as [Hj|Hj]; [contradiction|].
    apply (In_nth _ _ 0%nat) in Hi. destruct Hi as (p & Lp & <-). apply (In_nth _ _ 0%nat) in Hj. destruct Hj as (q & Lq & <-).
    rewrite firstn_length, rev_length in Lp. rewrite skipn_length, rev_length in Lq.
    assert (G : forall (l : list nat) k q, nth q (skipn k l) 0%nat = nth (k + q) l 0%nat).
    { clear. induction l; intros [|k] q; cbn; auto. destruct q; reflexivity. }
    assert (G' : forall (l : list nat) k p, (p < k)%nat -> nth p (firstn k l) 0%nat = nth p l 0%nat).
    { clear. induction l; intros [|k] [|p] H; cbn; auto; try lia. apply IHl. lia. }
    rewrite G, G' by lia. rewrite !rev_nth by lia. apply S. lia.
Qed.
