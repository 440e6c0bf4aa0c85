From Coq Require Import QArith Lia Sorting.Permutation.
From Coq Require Import ZifyBool ZifyNat.
From Verif Require Import Prelude ListFacts QFacts TransModel TransProofs HgModel HgSpec.
Local Open Scope nat_scope.
Local Open Scope list_scope.

Definition square (n : nat) (A : mat) : Prop := shape n n A.

Lemma mem_In : forall l x, mem x l = true <-> In x l.
Proof.
  intros l x. unfold mem. rewrite existsb_exists. split.
  - intros [y [I E]]. apply Nat.eqb_eq in E. subst. exact I.
  - intros I. exists x. split; [exact I | apply Nat.eqb_refl].
Qed.
Lemma mem_false : forall l x, mem x l = false <-> ~ In x l.
Proof. intros l x. rewrite <- mem_In. destruct (mem x l); intuition congruence. Qed.

Lemma neighbors_In : forall adj i j, In j (neighbors adj i) <-> adjacent (length adj) (entry adj) i j.
Proof.
  intros adj i j. unfold neighbors, adjacent. rewrite filter_In, in_seq, andb_true_iff, !negb_true_iff.
  rewrite Nat.eqb_neq. split.
  - intros [L [E N]]. repeat split; try lia. intros Q0. apply Qeq_bool_iff in Q0. congruence.
  - intros [L [N E]]. repeat split; try lia. destruct (Qeq_bool (entry adj i j) 0) eqn:D; [| reflexivity].
    apply Qeq_bool_iff in D. contradiction.
Qed.
Lemma list_eqb_eq : forall a b, list_eqb a b = true <-> a = b.
Proof.
  induction a as [|x a IH]; intros [|y b]; cbn; try (split; congruence). rewrite andb_true_iff, Nat.eqb_eq, IH.
  split; [intros [-> ->]; reflexivity | intros [= -> ->]; split; reflexivity].
Qed.

(* ---- the buckets ---- *)
Lemma bucket_concat : forall key i d, Permutation (concat (map snd (bucket key i d))) (i :: concat (map snd d)).
Proof.
  intros key i. induction d as [|[k l] d IH]; cbn; [reflexivity |].
  destruct (list_eqb k key); cbn.
  - rewrite <- app_assoc. cbn. symmetry. apply Permutation_middle.
  - rewrite IH. symmetry. apply Permutation_middle.
Qed.
Lemma bucket_keys : forall adj i d,
  Forall (fun kl : list nat * list nat => Forall (fun x => neighbors adj x = fst kl) (snd kl)) d ->
  Forall (fun kl : list nat * list nat => Forall (fun x => neighbors adj x = fst kl) (snd kl)) (bucket (neighbors adj i) i d).
Proof.
  intros adj i. induction d as [|[k l] d IH]; cbn; intros H.
  - repeat constructor.
  - inversion H as [|x y F1 F2]; subst. destruct (list_eqb k (neighbors adj i)) eqn:E.
    + apply list_eqb_eq in E. subst k. constructor; [| exact F2]. cbn in *. apply Forall_app. split; [exact F1 | repeat constructor].
    + constructor; [exact F1 | apply IH, F2].
Qed.
Lemma by_neigh_is : forall adj,
  Permutation (concat (map snd (by_neigh adj))) (seq 0 (length adj)) /\
  Forall (fun kl : list nat * list nat => Forall (fun x => neighbors adj x = fst kl) (snd kl)) (by_neigh adj).
Proof.
  intros adj. unfold by_neigh.
  assert (H : forall l d, Forall (fun kl : list nat * list nat => Forall (fun x => neighbors adj x = fst kl) (snd kl)) d ->
    Permutation (concat (map snd (fold_left (fun d i => bucket (neighbors adj i) i d) l d))) (l ++ concat (map snd d)) /\
    Forall (fun kl : list nat * list nat => Forall (fun x => neighbors adj x = fst kl) (snd kl))
      (fold_left (fun d i => bucket (neighbors adj i) i d) l d)).
  { induction l as [|i l IH]; intros d F; cbn [fold_left].
    - split; [reflexivity | exact F].
    - destruct (IH (bucket (neighbors adj i) i d) (bucket_keys adj i d F)) as [P F'].
      split; [| exact F']. rewrite P, bucket_concat. cbn. symmetry. apply Permutation_middle. }
  destruct (H (seq 0 (length adj)) [] (Forall_nil _)) as [P F]. split; [| exact F].
  rewrite P. cbn. rewrite app_nil_r. reflexivity.
Qed.

(* ---- the invariant ---- *)
Definition grouped_in_order (n : nat) (w : graph) (score : nat -> nat -> Q) (groups : list (list nat)) : Prop :=
  forall pre g post, groups = pre ++ g :: post -> well_grouped n w score (fun u => In u (concat pre)) g.
Definition inv (n : nat) (w : graph) (score : nat -> nat -> Q) (st : state) : Prop :=
  (forall x, In x (fst st) <-> In x (concat (snd st))) /\
  NoDup (concat (snd st)) /\ (forall x, In x (concat (snd st)) -> x < n) /\
  Forall (fun g => length g = 1 \/ length g = 2) (snd st) /\ grouped_in_order n w score (snd st).

Lemma order_snoc : forall n w score groups g, grouped_in_order n w score groups ->
  well_grouped n w score (fun u => In u (concat groups)) g -> grouped_in_order n w score (groups ++ [g]).
Proof.
  intros n w score groups g H W pre g' post E.
  destruct (exists_last (l := g' :: post)) as [front [z Z0]]; [discriminate |].
  rewrite Z0, app_assoc in E. apply app_inj_tail in E. destruct E as [E1 E2]. subst z.
  destruct front as [|f front].
  - cbn in Z0. injection Z0 as -> ->. rewrite app_nil_r in E1. subst pre. exact W.
  - cbn in Z0. injection Z0 as -> ->. exact (H pre f front E1).
Qed.
Lemma concat_snoc : forall (groups : list (list nat)) g, concat (groups ++ [g]) = concat groups ++ g.
Proof. intros groups g. rewrite concat_app. cbn. rewrite app_nil_r. reflexivity. Qed.

Lemma inv_add : forall n w score marked groups g marked',
  inv n w score (marked, groups) -> NoDup g -> (forall x, In x g -> x < n /\ ~ In x marked) ->
  (length g = 1 \/ length g = 2) -> well_grouped n w score (fun u => In u marked) g ->
  (forall x, In x marked' <-> In x marked \/ In x g) -> inv n w score (marked', groups ++ [g]).
Proof.
  intros n w score marked groups g marked' [M [ND [LT [SZ OR]]]] NG G L W M'. cbn [fst snd] in *.
  unfold inv. cbn [fst snd]. rewrite concat_snoc. repeat split.
  - rewrite M', in_app_iff, M. tauto.
  - rewrite M', in_app_iff, M. tauto.
  - clear -ND NG G M. assert (D : forall x, In x g -> ~ In x (concat groups)).
    { intros x I. rewrite <- M. exact (proj2 (G x I)). }
    clear G M. revert ND D. generalize (concat groups). intros l. induction l as [|x l IH]; intros ND D; cbn; [exact NG |].
    inversion ND as [|? ? N1 N2]; subst. constructor.
    + rewrite in_app_iff. intros [I|I]; [contradiction |]. apply (D x I). left. reflexivity.
    + apply IH; [exact N2 |]. intros y I J. apply (D y I). right. exact J.
  - intros x I. apply in_app_iff in I. destruct I as [I|I]; [exact (LT x I) | exact (proj1 (G x I))].
  - apply Forall_app. split; [exact SZ | constructor; [exact L | constructor]].
  - apply order_snoc; [exact OR |].
    destruct W as [[a [b [-> T]]]|[[v [b [-> [A H]]]]|[v [-> H]]]].
    + left. exists a, b. split; [reflexivity | exact T].
    + right; left. exists v, b. split; [reflexivity |]. split; [exact A |]. intros u Au N. apply H; [exact Au |]. rewrite M. exact N.
    + right; right. exists v. split; [reflexivity |]. intros u Au. rewrite <- M. exact (H u Au).
Qed.

Section Run.
Variable score : Q -> Z -> Z -> Q.
Variable adj : mat.
Variable weights : list Z.
Let n := length adj.
Let w : graph := entry adj.
Let sc := score_of score adj weights.

Lemma pair_up_inv : forall k nodes st, length nodes <= k ->
  NoDup nodes -> (forall x, In x nodes -> x < n) ->
  (forall a b, In a nodes -> In b nodes -> neighbors adj a = neighbors adj b) ->
  inv n w sc st -> inv n w sc (pair_up nodes st).
Proof.
  induction k as [|k IH]; intros [|a [|b rest]] st L ND LT S I; cbn [pair_up]; try exact I; cbn in L; try lia.
  destruct st as [marked groups]. inversion ND as [|? ? N1 N2]; subst. inversion N2 as [|? ? N3 N4]; subst.
  apply IH; [lia | exact N4 | intros x H; apply LT; right; right; exact H | intros x y Hx Hy; apply S; right; right; assumption |].
  destruct (mem a marked) eqn:Ea; cbn [orb]; [exact I |].
  destruct (mem b marked) eqn:Eb; [exact I |].
  apply mem_false in Ea. apply mem_false in Eb.
  apply (inv_add n w sc marked groups [a; b]); [exact I | | | right; reflexivity | |].
  - constructor; [intros [E|[]]; apply N1; left; exact E | repeat constructor; intros []].
  - intros x [<-|[<-|[]]]; (split; [apply LT; cbn; auto | assumption]).
  - left. exists a, b. split; [reflexivity |]. intros u. unfold n, w.
    rewrite <- !neighbors_In. rewrite (S a b); [tauto | left; reflexivity | right; left; reflexivity].
  - intros x. cbn. tauto.
Qed.
Lemma inv_nil : inv n w sc ([], []).
Proof.
  unfold inv. cbn. split; [tauto |]. split; [constructor |]. split; [intros x [] |]. split; [constructor |].
  intros pre g post E. destruct pre; discriminate E.
Qed.
Lemma NoDup_app_parts : forall (A : Type) (a b : list A), NoDup (a ++ b) -> NoDup a /\ NoDup b.
Proof.
  intros A. induction a as [|x a IH]; intros b H; cbn in *; [split; [constructor | exact H] |].
  inversion H as [|? ? N1 N2]; subst. destruct (IH b N2) as [Na Nb]. split; [| exact Nb].
  constructor; [intros I; apply N1, in_app_iff; left; exact I | exact Na].
Qed.
Lemma equivalence_inv : inv n w sc (equivalence_grouping adj).
Proof.
  unfold equivalence_grouping. destruct (by_neigh_is adj) as [P F].
  assert (ND : NoDup (concat (map snd (by_neigh adj)))).
  { eapply Permutation_NoDup; [apply Permutation_sym, P | apply seq_NoDup]. }
  assert (LT : forall x, In x (concat (map snd (by_neigh adj))) -> x < n).
  { intros x I. apply (Permutation_in x P) in I. apply in_seq in I. unfold n. lia. }
  clear P. generalize inv_nil. generalize (([], []) : state).
  revert F ND LT. generalize (by_neigh adj). intros d. induction d as [|[k l] d IH]; intros F ND LT st I; cbn [fold_left]; [exact I |].
  cbn in ND, LT. destruct (NoDup_app_parts _ _ _ ND) as [N1 N2]. inversion F as [|? ? F1 F2]; subst.
  apply IH; [exact F2 | exact N2 | intros x H; apply LT, in_app_iff; right; exact H |].
  cbn [snd fst] in *. apply (pair_up_inv (length l)); [lia | exact N1 | intros x H; apply LT, in_app_iff; left; exact H | | exact I].
  intros a b Ha Hb. rewrite Forall_forall in F1. rewrite (F1 a Ha), (F1 b Hb). reflexivity.
Qed.

(* the partner kept *)
Definition best_of (s : nat -> Q) (marked seen : list nat) (best : option (nat * Q)) : Prop :=
  match best with
  | None => forall u, In u seen -> In u marked
  | Some (b, bs) => In b seen /\ ~ In b marked /\ bs = s b /\
      forall u, In u seen -> ~ In u marked -> (s u <= s b)%Q /\ ((s u == s b)%Q -> b <= u)
  end.
Lemma best_fold : forall s marked l seen best, best_of s marked seen best ->
  best_of s marked (seen ++ l) (fold_left (best_step s marked) l best).
Proof.
  intros s marked. induction l as [|u l IH]; intros seen best H; cbn [fold_left].
  - rewrite app_nil_r. exact H.
  - replace (seen ++ u :: l) with ((seen ++ [u]) ++ l) by (rewrite <- app_assoc; reflexivity).
    apply IH. unfold best_step. destruct (mem u marked) eqn:E.
    + apply mem_In in E. destruct best as [[b bs]|]; cbn in *.
      * destruct H as [I [N [B M]]]. split; [apply in_app_iff; left; exact I |]. split; [exact N |]. split; [exact B |].
        intros x Hx Nx. apply in_app_iff in Hx. destruct Hx as [Hx|[<-|[]]]; [exact (M x Hx Nx) | contradiction].
      * intros x Hx. apply in_app_iff in Hx. destruct Hx as [Hx|[<-|[]]]; [exact (H x Hx) | exact E].
    + apply mem_false in E. destruct best as [[b bs]|]; cbn [best_of] in *.
      * destruct H as [I [N [-> M]]].
        destruct (negb (Qle_bool (s u) (s b)) || (Qeq_bool (s u) (s b) && Nat.ltb u b)) eqn:D; cbn [best_of].
        -- split; [apply in_app_iff; right; left; reflexivity |]. split; [exact E |]. split; [reflexivity |].
           intros x Hx Nx. apply in_app_iff in Hx. destruct Hx as [Hx|[<-|[]]].
           ++ destruct (M x Hx Nx) as [M1 M2]. apply orb_true_iff in D. destruct D as [D|D].
              ** apply negb_true_iff in D.
                 assert (LT : (s b < s u)%Q). { apply Qnot_le_lt. intros L. apply Qle_bool_iff in L. congruence. }
                 split; [apply Qlt_le_weak; eapply Qle_lt_trans; eassumption |].
                 intros EQ. exfalso. rewrite EQ in M1. exact (Qlt_not_le _ _ LT M1).
              ** apply andb_true_iff in D. destruct D as [D1 D2]. apply Qeq_bool_iff in D1. apply Nat.ltb_lt in D2.
                 split; [rewrite D1; exact M1 |]. intros EQ. rewrite D1 in EQ. specialize (M2 EQ). lia.
           ++ split; [apply Qle_refl | lia].
        -- apply orb_false_iff in D. destruct D as [D1 D2]. apply negb_false_iff in D1. apply Qle_bool_iff in D1.
           split; [apply in_app_iff; left; exact I |]. split; [exact N |]. split; [reflexivity |].
           intros x Hx Nx. apply in_app_iff in Hx. destruct Hx as [Hx|[<-|[]]]; [exact (M x Hx Nx) |].
           split; [exact D1 |]. intros EQ. apply Qeq_bool_iff in EQ. rewrite EQ in D2. cbn [andb] in D2. apply Nat.ltb_ge in D2. exact D2.
      * split; [apply in_app_iff; right; left; reflexivity |]. split; [exact E |]. split; [reflexivity |].
        intros x Hx Nx. apply in_app_iff in Hx. destruct Hx as [Hx|[<-|[]]]; [contradiction (Nx (H x Hx)) |].
        split; [apply Qle_refl | lia].
Qed.

Lemma similarity_inv : forall st v, v < n -> inv n w sc st -> inv n w sc (similarity_step score adj weights st v).
Proof.
  intros [marked groups] v Lv I. unfold similarity_step. destruct (mem v marked) eqn:E; [exact I |]. apply mem_false in E.
  pose proof (best_fold (score_of score adj weights v) marked (neighbors adj v) [] None (fun u F => match F with end)) as B.
  cbn [app] in B.
  destruct (fold_left (best_step (score_of score adj weights v) marked) (neighbors adj v) None) as [[b bs]|]; cbn in B.
  - destruct B as [Ib [Nb [_ M]]]. pose proof (proj1 (neighbors_In adj v b) Ib) as Ab.
    apply (inv_add n w sc marked groups [v; b]); [exact I | | | right; reflexivity | |].
    + constructor; [intros [F|[]]; destruct Ab as [_ [Ab _]]; congruence | repeat constructor; intros []].
    + intros x [<-|[<-|[]]]; (split; [| assumption]); [exact Lv | exact (proj1 Ab)].
    + right; left. exists v, b. split; [reflexivity |]. split; [exact Ab |].
      intros u Au Nu. apply M; [exact (proj2 (neighbors_In adj v u) Au) | exact Nu].
    + intros x. cbn. tauto.
  - apply (inv_add n w sc marked groups [v]); [exact I | repeat constructor; intros [] | | left; reflexivity | |].
    + intros x [<-|[]]. split; [exact Lv | exact E].
    + right; right. exists v. split; [reflexivity |]. intros u Au. apply B. exact (proj2 (neighbors_In adj v u) Au).
    + intros x. cbn. tauto.
Qed.
Lemma similarity_marks : forall st v, In v (fst (similarity_step score adj weights st v)) /\
  forall x, In x (fst st) -> In x (fst (similarity_step score adj weights st v)).
Proof.
  intros [marked groups] v. unfold similarity_step. destruct (mem v marked) eqn:E.
  - apply mem_In in E. split; [exact E | auto].
  - destruct (fold_left _ _ None) as [[b bs]|]; cbn; auto.
Qed.
Lemma insert_perm : forall key x l, Permutation (insert_by key x l) (x :: l).
Proof.
  intros key x. induction l as [|y l IH]; cbn; [reflexivity |]. destruct (Nat.leb (key x) (key y)); [reflexivity |].
  rewrite IH. apply perm_swap.
Qed.
Lemma argsort_perm : forall key k, Permutation (argsort key k) (seq 0 k).
Proof.
  intros key k. unfold argsort. induction (seq 0 k) as [|x l IH]; cbn; [reflexivity |]. rewrite insert_perm. constructor. exact IH.
Qed.
Lemma similarity_fold : forall l st, (forall v, In v l -> v < n) -> inv n w sc st ->
  inv n w sc (fold_left (similarity_step score adj weights) l st) /\
  (forall x, In x l \/ In x (fst st) -> In x (fst (fold_left (similarity_step score adj weights) l st))).
Proof.
  induction l as [|v l IH]; intros st L I; cbn [fold_left]; [split; [exact I | intros x [[]|H]; exact H] |].
  destruct (IH (similarity_step score adj weights st v)) as [I' M']; [intros x H; apply L; right; exact H | apply similarity_inv; [apply L; left; reflexivity | exact I] |].
  split; [exact I' |]. intros x [[<-|H]|H]; apply M'; [right; exact (proj1 (similarity_marks st v)) | left; exact H | right; exact (proj2 (similarity_marks st v) x H)].
Qed.
Lemma leftover_id : forall l st, (forall v, In v l -> In v (fst st)) -> fold_left leftover_step l st = st.
Proof.
  induction l as [|v l IH]; intros st L; cbn [fold_left]; [reflexivity |].
  assert (E : leftover_step st v = st).
  { destruct st as [m g]. unfold leftover_step. assert (X : mem v m = true) by (apply mem_In; apply (L v); left; reflexivity).
    rewrite X. reflexivity. }
  rewrite E. apply IH. intros x H. apply L. right. exact H.
Qed.
Theorem groups_ok : partition n (coarse_groups score adj weights) /\
  Forall (fun g => length g = 1 \/ length g = 2) (coarse_groups score adj weights) /\
  grouped_in_order n w sc (coarse_groups score adj weights).
Proof.
  unfold coarse_groups. fold n.
  set (order := argsort (fun i => length (neighbors adj i)) n).
  assert (O1 : forall v, In v order <-> v < n).
  { intros v. unfold order. split; intros H.
    - apply (Permutation_in v (argsort_perm _ _)) in H. apply in_seq in H. lia.
    - apply (Permutation_in v (Permutation_sym (argsort_perm _ _))). apply in_seq. lia. }
  destruct (similarity_fold order (equivalence_grouping adj)) as [I M]; [intros v H; apply O1, H | apply equivalence_inv |].
  rewrite leftover_id by (intros v H; apply M; left; apply O1; apply in_seq in H; lia).
  destruct I as [MG [ND [LT [SZ OR]]]]. split; [| split; [exact SZ | exact OR]].
  split; [exact ND |]. intros i. split; [apply LT |]. intros Li. apply MG, M. left. apply O1, Li.
Qed.
End Run.

(* ---- sums over a partition ---- *)
Lemma fold_Qsum : forall l, fold_right Qplus 0%Q l == Qsum l.
Proof. induction l as [|x l IH]; [reflexivity |]. cbn [fold_right]. rewrite Qsum_cons, IH. reflexivity. Qed.
Lemma sum_members : forall l n (f : nat -> Q), NoDup l -> (forall x, In x l -> x < n) ->
  (Qsum (map (fun i => (if mem i l then 1 else 0) * f i) (seq 0 n)) == Qsum (map f l))%Q.
Proof.
  induction l as [|x l IH]; intros n f ND LT.
  - cbn [map]. rewrite Qsum_nil. apply Qsum_zero. intros y Hy. cbn. ring.
  - inversion ND as [|? ? N1 N2]; subst. cbn [map]. rewrite Qsum_cons, <- (IH n f N2) by (intros y H; apply LT; right; exact H).
    assert (Lx : x < n) by (apply LT; left; reflexivity).
    assert (P : Permutation (seq 0 n) (x :: filter (fun i => negb (Nat.eqb i x)) (seq 0 n))).
    { apply NoDup_Permutation; [apply seq_NoDup | constructor; [| apply NoDup_filter, seq_NoDup] |].
      - rewrite filter_In. rewrite Nat.eqb_refl. cbn. intros [_ F]. discriminate F.
      - intros y. cbn. rewrite filter_In, !in_seq, negb_true_iff, Nat.eqb_neq. lia. }
    rewrite !(Qsum_perm _ _ (Permutation_map _ P)). cbn [map]. rewrite !Qsum_cons.
    assert (E1 : mem x (x :: l) = true) by (apply mem_In; left; reflexivity).
    assert (E2 : mem x l = false) by (apply mem_false; exact N1). rewrite E1, E2.
    rewrite (Qsum_ext (fun i => ((if mem i (x :: l) then 1 else 0) * f i)%Q) (fun i => ((if mem i l then 1 else 0) * f i)%Q) (filter _ _)); [ring |].
    intros y Hy. apply filter_In in Hy. destruct Hy as [_ Hy]. apply negb_true_iff in Hy.
    unfold mem. cbn [existsb]. rewrite Hy. reflexivity.
Qed.

Lemma group_entry : forall n groups i g, i < n -> g < length groups ->
  entry (group_matrix n groups) i g = if mem i (nth g groups []) then 1%Q else 0%Q.
Proof. intros n groups i g Hi Hg. unfold group_matrix. rewrite entry_tabulate by assumption. reflexivity. Qed.

Section Level.
Variable n : nat.
Variable groups : list (list nat).
Hypothesis part : partition n groups.
Lemma group_members : forall g, In g groups -> NoDup g /\ forall x, In x g -> x < n.
Proof.
  intros g I. destruct part as [ND IN]. apply in_split in I. destruct I as [l1 [l2 E]]. split.
  - rewrite E, concat_app in ND. cbn in ND. apply NoDup_app_parts in ND. destruct ND as [_ ND]. apply NoDup_app_parts in ND. exact (proj1 ND).
  - intros x H. apply IN. rewrite E, concat_app, in_app_iff. cbn. right. apply in_app_iff. left. exact H.
Qed.
Lemma nth_group : forall g, g < length groups -> In (nth g groups []) groups.
Proof. intros g H. apply nth_In. exact H. Qed.
Lemma pooled_sum : forall g f, g < length groups ->
  (Qsum (map (fun i => entry (group_matrix n groups) i g * f i) (seq 0 n)) == Qsum (map f (nth g groups [])))%Q.
Proof.
  intros g f Hg. destruct (group_members _ (nth_group g Hg)) as [ND LT]. rewrite <- (sum_members _ n f ND LT).
  apply Qsum_ext. intros i Hi. apply in_seq in Hi. rewrite group_entry by lia. reflexivity.
Qed.
Lemma partition_perm : Permutation (concat groups) (seq 0 n).
Proof.
  destruct part as [ND IN]. apply NoDup_Permutation; [exact ND | apply seq_NoDup |]. intros x. rewrite IN, in_seq. lia.
Qed.
End Level.

Lemma nth_group_unique : forall (groups : list (list nat)) i g h, NoDup (concat groups) -> g < length groups -> h < length groups ->
  In i (nth g groups []) -> In i (nth h groups []) -> g = h.
Proof.
  induction groups as [|x groups IH]; intros i g h ND Hg Hh I J; [cbn in Hg; lia |].
  cbn [concat] in ND. assert (D : forall y, In y x -> In y (concat groups) -> False).
  { intros y A B. clear -ND A B. induction x as [|z x IHx]; [destruct A |]. cbn in ND. inversion ND as [|? ? N1 N2]; subst.
    destruct A as [<-|A]; [apply N1, in_app_iff; right; exact B | exact (IHx N2 A)]. }
  assert (C : forall k, k < length groups -> In i (nth k groups []) -> In i (concat groups)).
  { intros k Hk K. apply in_concat. exists (nth k groups []). split; [apply nth_In, Hk | exact K]. }
  cbn in Hg, Hh. destruct g as [|g], h as [|h]; cbn in I, J; [reflexivity | | |].
  - exfalso. apply (D i I). apply (C h); [lia | exact J].
  - exfalso. apply (D i J). apply (C g); [lia | exact I].
  - f_equal. apply (IH i); [exact (proj2 (NoDup_app_parts _ _ _ ND)) | lia | lia | exact I | exact J].
Qed.

Lemma between_sum : forall w g h, (between w g h == Qsum (map (fun i => Qsum (map (w i) h)) g))%Q.
Proof.
  intros w g h. unfold between. rewrite fold_Qsum. apply Qsum_ext. intros i _. apply fold_Qsum.
Qed.
Lemma Qsum_concat_map : forall (f : nat -> Q) (gs : list (list nat)),
  (Qsum (map f (concat gs)) == Qsum (map (fun g => Qsum (map f g)) gs))%Q.
Proof.
  intros f. induction gs as [|g gs IH]; [reflexivity |]. cbn [map concat]. rewrite map_app, Qsum_app, Qsum_cons, IH. reflexivity.
Qed.
Lemma map_nth_groups : forall (f : list nat -> Q) (gs : list (list nat)),
  map (fun g => f (nth g gs [])) (seq 0 (length gs)) = map f gs.
Proof.
  intros f gs. induction gs as [|g gs IH]; cbn; [reflexivity |]. f_equal. rewrite <- seq_shift, map_map. exact IH.
Qed.
Lemma sumZ_concat : forall (f : nat -> Z) (gs : list (list nat)),
  sumZ (map (fun g => sumZ (map f g)) gs) = sumZ (map f (concat gs)).
Proof.
  intros f. induction gs as [|g gs IH]; [reflexivity |]. cbn [map concat]. rewrite map_app, sumZ_app. cbn [sumZ].
  rewrite IH. reflexivity.
Qed.
Lemma weights_back : forall ws, map (wat ws) (seq 0 (length ws)) = ws.
Proof.
  intros ws. unfold wat. induction ws as [|x ws IH]; cbn; [reflexivity |]. f_equal. rewrite <- seq_shift, map_map. exact IH.
Qed.

Section Coarse.
Variable score : Q -> Z -> Z -> Q.
Variable adj : mat.
Variable weights : list Z.
Let n := length adj.
Let groups := coarse_groups score adj weights.
Let M := fst (fst (coarsen score adj weights)).
Let adj' := snd (fst (coarsen score adj weights)).
Let weights' := snd (coarsen score adj weights).
Lemma coarse_part : partition n groups.
Proof. exact (proj1 (groups_ok score adj weights)). Qed.
Lemma coarse_shape : square (length groups) adj'.
Proof. apply shape_tabulate. Qed.
Lemma coarse_entry : forall g h, g < length groups -> h < length groups ->
  (entry adj' g h == between (entry adj) (nth g groups []) (nth h groups []))%Q.
Proof.
  intros g h Hg Hh. unfold adj', coarsen. cbn [fst snd]. fold n groups. rewrite entry_tabulate by assumption.
  rewrite between_sum, <- (pooled_sum n groups coarse_part g) by exact Hg.
  apply Qsum_ext. intros i _. rewrite <- (pooled_sum n groups coarse_part h) by exact Hh.
  rewrite <- Qsum_scale. apply Qsum_ext. intros j _. ring.
Qed.
Lemma coarse_total : (total (length groups) (entry adj') == total n (entry adj))%Q.
Proof.
  unfold total. rewrite !between_sum.
  rewrite (Qsum_ext _ (fun g => Qsum (map (fun h => between (entry adj) (nth g groups []) h) groups)) (seq 0 (length groups))).
  2:{ intros g Hg. apply in_seq in Hg. rewrite <- (map_nth_groups (fun h => between (entry adj) (nth g groups []) h)).
      apply Qsum_ext. intros h Hh. apply in_seq in Hh. apply coarse_entry; lia. }
  rewrite (map_nth_groups (fun g => Qsum (map (fun h => between (entry adj) g h) groups))).
  rewrite <- (Qsum_perm _ _ (Permutation_map (fun i => Qsum (map (entry adj i) (seq 0 n))) (partition_perm n groups coarse_part))).
  rewrite Qsum_concat_map. apply Qsum_ext. intros g _.
  rewrite (Qsum_ext _ (fun h => Qsum (map (fun i => Qsum (map (entry adj i) h)) g)) groups) by (intros h _; apply between_sum).
  rewrite Qsum_swap. apply Qsum_ext. intros i _.
  rewrite <- (Qsum_perm _ _ (Permutation_map (entry adj i) (partition_perm n groups coarse_part))).
  rewrite Qsum_concat_map. reflexivity.
Qed.
Lemma coarse_symmetric : symmetric n (entry adj) -> symmetric (length groups) (entry adj').
Proof.
  intros S g h Hg Hh. rewrite !coarse_entry by assumption. rewrite !between_sum, Qsum_swap.
  apply Qsum_ext. intros j Hj. apply Qsum_ext. intros i Hi. apply S.
  - exact (proj2 (group_members n groups coarse_part _ (nth_group groups g Hg)) i Hi).
  - exact (proj2 (group_members n groups coarse_part _ (nth_group groups h Hh)) j Hj).
Qed.
Lemma coarse_weights : weights' = map (fun g => sumZ (map (wat weights) g)) groups.
Proof. reflexivity. Qed.
Lemma coarse_weight_total : length weights = n -> sumZ weights' = sumZ weights.
Proof.
  intros L. rewrite coarse_weights, sumZ_concat.
  rewrite (sumZ_perm _ _ (Permutation_map (wat weights) (partition_perm n groups coarse_part))), <- L, weights_back. reflexivity.
Qed.
Lemma coarse_count : length groups <= n <= 2 * length groups.
Proof.
  destruct (groups_ok score adj weights) as [P [SZ _]]. fold n groups in P, SZ.
  pose proof (Permutation_length (partition_perm n groups P)) as L. rewrite seq_length in L.
  clear P. revert L. generalize n. induction SZ as [|g gs [E|E] F IH]; cbn; intros k L; [lia | |];
    rewrite app_length in L; specialize (IH (length (concat gs)) eq_refl); lia.
Qed.
End Coarse.

(* ---- the levels ---- *)
Lemma levels_length : forall score num adj ws,
  length (fst (levels score num adj ws)) = S num /\ length (snd (levels score num adj ws)) = num.
Proof.
  intros score. induction num as [|num IH]; intros adj ws; cbn [levels]; [split; reflexivity |].
  destruct (coarsen score adj ws) as [[M a'] w']. specialize (IH a' w'). destruct (levels score num a' w') as [ls Ms].
  cbn in *. lia.
Qed.
Lemma levels_step : forall score num adj ws k d, k < num ->
  let l := nth k (fst (levels score num adj ws)) d in
  nth k (snd (levels score num adj ws)) [] = fst (fst (coarsen score (fst l) (snd l))) /\
  nth (S k) (fst (levels score num adj ws)) d = (snd (fst (coarsen score (fst l) (snd l))), snd (coarsen score (fst l) (snd l))).
Proof.
  intros score. induction num as [|num IH]; intros adj ws k d Hk; [lia |]. cbn [levels].
  destruct (coarsen score adj ws) as [[M a'] w'] eqn:C.
  destruct (levels score num a' w') as [ls Ms] eqn:L.
  destruct k as [|k].
  - cbn [nth fst snd]. rewrite C. cbn [fst snd]. split; [reflexivity |].
    destruct num as [|num]; cbn [levels] in L.
    + injection L as <- <-. reflexivity.
    + destruct (coarsen score a' w') as [[M2 a2] w2]. destruct (levels score num a2 w2). injection L as <- <-. reflexivity.
  - specialize (IH a' w' k d ltac:(lia)). rewrite L in IH. cbn [fst snd nth] in *. exact IH.
Qed.
Lemma levels_head : forall score num adj ws d, nth 0 (fst (levels score num adj ws)) d = (adj, ws).
Proof.
  intros score [|num] adj ws d; cbn [levels]; [reflexivity |].
  destruct (coarsen score adj ws) as [[M a'] w']. destruct (levels score num a' w'). reflexivity.
Qed.
Lemma positive_sum : forall l, (forall x, In x l -> (1 <= x)%Z) -> l <> [] -> (1 <= sumZ l)%Z.
Proof.
  induction l as [|x l IH]; intros H N; [congruence |]. cbn [sumZ]. pose proof (H x (or_introl eq_refl)).
  destruct l as [|y l]; [cbn; lia |]. assert (1 <= sumZ (y :: l))%Z by (apply IH; [intros z Hz; apply H; right; exact Hz | discriminate]). lia.
Qed.
Lemma weights_positive : forall score adj ws, length ws = length adj -> (forall x, In x ws -> (1 <= x)%Z) ->
  length (snd (coarsen score adj ws)) = length (snd (fst (coarsen score adj ws))) /\
  forall x, In x (snd (coarsen score adj ws)) -> (1 <= x)%Z.
Proof.
  intros score adj ws L P. split.
  - unfold coarsen. cbn [fst snd]. rewrite map_length. symmetry. apply (proj1 (shape_tabulate _ _ _)).
  - intros x I. rewrite coarse_weights in I. apply in_map_iff in I. destruct I as [g [<- Ig]].
    destruct (groups_ok score adj ws) as [PA [SZ _]]. rewrite Forall_forall in SZ. specialize (SZ g Ig).
    apply positive_sum.
    + intros y Hy. apply in_map_iff in Hy. destruct Hy as [i [<- Hi]]. apply P. unfold wat. apply nth_In. rewrite L.
      exact (proj2 (group_members _ _ PA g Ig) i Hi).
    + destruct g; [cbn in SZ; lia | discriminate].
Qed.
Lemma fold_max_ge : forall l x, In x l -> (x <= fold_right Z.max 0 l)%Z.
Proof. induction l as [|y l IH]; intros x H; [destruct H |]. destruct H as [<-|H]; cbn [fold_right]; [lia | specialize (IH x H); lia]. Qed.

(* ---- the dense matrix ---- *)
Lemma dense_entry_is : forall edges i j, i <> j -> (dense_entry edges i j == weight_between edges i j)%Q.
Proof.
  intros edges i j NE. unfold dense_entry, weight_between. rewrite fold_Qsum.
  assert (H : forall l acc, (fold_left (fun acc (e : nat * nat * Q) => let '(s, d, w) := e in
     if Nat.eqb s d then acc else if Nat.eqb s i && Nat.eqb d j then (acc + w)%Q else acc) l acc
     == acc + Qsum (map snd (filter (fun e => Nat.eqb (fst (fst e)) i && Nat.eqb (snd (fst e)) j) l)))%Q).
  { induction l as [|[[s d] q] l IH]; intros acc; cbn [fold_left].
    - cbn [filter map]. rewrite Qsum_nil. ring.
    - rewrite IH. cbn [filter fst snd]. destruct (Nat.eqb s i && Nat.eqb d j) eqn:E.
      + apply andb_true_iff in E. destruct E as [E1 E2]. apply Nat.eqb_eq in E1. apply Nat.eqb_eq in E2. subst s d.
        replace (Nat.eqb i j) with false by (symmetry; apply Nat.eqb_neq; exact NE). cbn [map snd]. rewrite Qsum_cons. ring.
      + destruct (Nat.eqb s d); reflexivity. }
  rewrite H. ring.
Qed.
Lemma qmax_is : forall a b, (a <= qmax a b)%Q /\ (b <= qmax a b)%Q /\ (qmax a b == a \/ qmax a b == b)%Q.
Proof.
  intros a b. unfold qmax. destruct (Qle_bool a b) eqn:E.
  - apply Qle_bool_iff in E. split; [exact E |]. split; [apply Qle_refl | right; reflexivity].
  - split; [apply Qle_refl |]. split; [| left; reflexivity]. apply Qlt_le_weak, Qnot_le_lt. intros L. apply Qle_bool_iff in L. congruence.
Qed.
Lemma qmax_comm : forall a b, (qmax a b == qmax b a)%Q.
Proof.
  intros a b. apply Qle_antisym.
  - destruct (qmax_is a b) as [_ [_ [E|E]]]; rewrite E; apply (qmax_is b a).
  - destruct (qmax_is b a) as [_ [_ [E|E]]]; rewrite E; apply (qmax_is a b).
Qed.
Lemma dense_symmetric : forall edges n, symmetric n (entry (dense_adjacency edges n true)).
Proof.
  intros edges n i j Hi Hj. unfold dense_adjacency. rewrite !entry_tabulate by assumption.
  rewrite (Nat.eqb_sym j i). destruct (Nat.eqb i j); [reflexivity | apply qmax_comm].
Qed.
