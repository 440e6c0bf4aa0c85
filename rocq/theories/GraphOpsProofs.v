(* Proofs about the edge-list operations. *)
From Coq Require Import QArith Qminmax ZifyBool.
From Verif Require Import Prelude ListFacts GraphOpsModel GraphOpsSpec SampleServiceProofs.
Local Open Scope Z_scope.
Local Open Scope list_scope.

Lemma edge_eqb_iff a b : edge_eqb a b = true <-> a = b.
Proof.
  unfold edge_eqb. destruct a as [a1 a2], b as [b1 b2]; cbn.
  rewrite andb_true_iff, !Z.eqb_eq. split; [intros [-> ->]; reflexivity|intros H; inversion H; auto].
Qed.
Lemma edge_eqb_refl a : edge_eqb a a = true.
Proof. apply edge_eqb_iff; reflexivity. Qed.
Lemma edge_eqb_false a b : edge_eqb a b = false <-> a <> b.
Proof.
  destruct (edge_eqb a b) eqn:E.
  - apply edge_eqb_iff in E. split; [discriminate|intros H; contradiction].
  - split; [intros _ ->|reflexivity]. rewrite edge_eqb_refl in E; discriminate.
Qed.
Lemma edge_leb_total a b : edge_leb a b = false -> edge_leb b a = true /\ a <> b.
Proof.
  unfold edge_leb. destruct a as [a1 a2], b as [b1 b2]; cbn. intros H. split; [lia|].
  intros E; inversion E; subst. lia.
Qed.
Lemma edge_leb_trans a b c : edge_leb a b = true -> edge_leb b c = true -> edge_leb a c = true.
Proof. unfold edge_leb. destruct a, b, c; cbn. lia. Qed.
Lemma edge_leb_antisym a b : edge_leb a b = true -> edge_leb b a = true -> a = b.
Proof. unfold edge_leb. destruct a as [a1 a2], b as [b1 b2]; cbn. intros. f_equal; lia. Qed.

Section Runs.
Context {X : Type}.
Implicit Types l : list (edge * X).

Definition key_le (a b : edge * X) : Prop := edge_leb (fst a) (fst b) = true.

Lemma lex_insert_perm x l : Permutation (x :: l) (lex_insert x l).
Proof.
  induction l as [|y r IH]; cbn; [reflexivity|].
  destruct (edge_leb _ _); [reflexivity|]. rewrite perm_swap. constructor. exact IH.
Qed.
Lemma lexsort_perm l : Permutation l (lexsort l).
Proof.
  induction l as [|x r IH]; cbn; [reflexivity|].
  rewrite <- lex_insert_perm. constructor. exact IH.
Qed.
Lemma lex_insert_sorted x l : StronglySorted key_le l -> StronglySorted key_le (lex_insert x l).
Proof.
  induction l as [|y r IH]; cbn; intros H; [repeat constructor|].
  inversion H as [|? ? Hr Hy]; subst.
  destruct (edge_leb (fst x) (fst y)) eqn:E.
  - constructor; [exact H|]. constructor; [exact E|].
    rewrite Forall_forall in *. intros z Hz. eapply edge_leb_trans; [exact E|apply Hy; exact Hz].
  - constructor; [apply IH; exact Hr|].
    rewrite Forall_forall in *. intros z Hz.
    apply (Permutation_in _ (Permutation_sym (lex_insert_perm x r))) in Hz. destruct Hz as [<-|Hz].
    + apply edge_leb_total in E. apply E.
    + apply Hy; exact Hz.
Qed.
Lemma lexsort_sorted l : StronglySorted key_le (lexsort l).
Proof. induction l as [|x r IH]; cbn; [constructor|apply lex_insert_sorted; exact IH]. Qed.

Definition of_key (k : edge) l : list X := map snd (filter (fun p => edge_eqb (fst p) k) l).

Lemma of_key_insert k x l : of_key k (lex_insert x l) = of_key k (x :: l).
Proof.
  unfold of_key. induction l as [|y r IH]; [reflexivity|]. cbn [lex_insert].
  destruct (edge_leb (fst x) (fst y)) eqn:E; [reflexivity|].
  apply edge_leb_total in E. destruct E as [_ E].
  cbn [filter] in *. destruct (edge_eqb (fst x) k) eqn:Ex, (edge_eqb (fst y) k) eqn:Ey;
    cbn [map] in *; try rewrite IH; try reflexivity.
  exfalso. apply edge_eqb_iff in Ex, Ey. congruence.
Qed.
(* stability: the copies of one key keep their order *)
Lemma of_key_sort k l : of_key k (lexsort l) = of_key k l.
Proof.
  induction l as [|x r IH]; [reflexivity|]. cbn [lexsort]. rewrite of_key_insert.
  unfold of_key in *. cbn [filter]. destruct (edge_eqb (fst x) k); cbn [map]; rewrite IH; reflexivity.
Qed.

Lemma runs_keys_sub l k : In k (map fst (runs l)) -> In k (map fst l).
Proof.
  induction l as [|[k0 x] r IH]; cbn; [auto|].
  destruct (runs r) as [|[k' xs] t]; cbn; [tauto|].
  destruct (edge_eqb k0 k') eqn:E; cbn in *; [|tauto].
  apply edge_eqb_iff in E; subst. intuition.
Qed.
Lemma runs_head k (x : X) r : exists xs t, runs ((k, x) :: r) = (k, xs) :: t.
Proof.
  cbn. destruct (runs r) as [|[k' xs] t]; eauto. destruct (edge_eqb k k'); eauto.
Qed.
Lemma of_key_absent k l : ~ In k (map fst l) -> of_key k l = [].
Proof.
  unfold of_key. induction l as [|[k0 x] r IH]; cbn; [auto|]. intros H.
  destruct (edge_eqb k0 k) eqn:E; [apply edge_eqb_iff in E; tauto|]. apply IH. tauto.
Qed.

Lemma runs_spec l : StronglySorted key_le l ->
  NoDup (map fst (runs l)) /\
  forall k xs, In (k, xs) (runs l) <-> xs <> [] /\ xs = of_key k l.
Proof.
  induction l as [|[k0 x] r IH]; cbn [runs]; intros Hs.
  - split; [constructor|]. intros k xs. split; [intros []|intros [H E]; cbn in E; contradiction].
  - inversion Hs as [|? ? Hr Hall]; subst. destruct (IH Hr) as [Hnd Hin]. clear IH.
    assert (Hmin : forall k, In k (map fst r) -> edge_leb k0 k = true).
    { intros k Hk. apply in_map_iff in Hk. destruct Hk as [p [<- Hp]].
      rewrite Forall_forall in Hall. apply (Hall p Hp). }
    assert (Hof : forall k, of_key k ((k0, x) :: r) = if edge_eqb k0 k then x :: of_key k r else of_key k r).
    { intros k. unfold of_key. cbn. destruct (edge_eqb k0 k); reflexivity. }
    destruct (runs r) as [|[k' xs'] t] eqn:Er.
    + assert (r = []) as ->.
      { destruct r as [|[k1 x1] r']; [reflexivity|]. destruct (runs_head k1 x1 r') as [a [b E]]. congruence. }
      split; [repeat constructor; cbn; tauto|]. intros k xs. rewrite Hof. cbn. split.
      * intros [E|[]]. inversion E; subst. rewrite edge_eqb_refl. split; [discriminate|reflexivity].
      * intros [Hne ->]. destruct (edge_eqb k0 k) eqn:E; [|contradiction].
        apply edge_eqb_iff in E; subst. left; reflexivity.
    + destruct (edge_eqb k0 k') eqn:E.
      * apply edge_eqb_iff in E; subst k'. split; [cbn in *; exact Hnd|].
        intros k xs. rewrite Hof. cbn in Hnd. inversion Hnd as [|? ? Hni Hnd']; subst. split.
        -- intros [H|H].
           ++ inversion H; subst. rewrite edge_eqb_refl. split; [discriminate|]. f_equal.
              apply (Hin k xs'). left; reflexivity.
           ++ assert (Hk : k0 <> k).
              { intros ->. apply Hni. apply in_map_iff. exists (k, xs). auto. }
              apply edge_eqb_false in Hk. rewrite Hk. apply Hin. right; exact H.
        -- intros [Hne ->]. destruct (edge_eqb k0 k) eqn:E.
           ++ apply edge_eqb_iff in E; subst k. left. f_equal. f_equal.
              apply (Hin k0 xs'). left; reflexivity.
           ++ assert (H : In (k, of_key k r) ((k0, xs') :: t)) by (apply Hin; auto).
              destruct H as [H|H]; [|right; exact H]. inversion H; subst.
              rewrite edge_eqb_refl in E; discriminate.
      * assert (Hk0 : ~ In k0 (map fst r)).
        { intros Hk. destruct r as [|[k1 x1] r']; [exact Hk|].
          destruct (runs_head k1 x1 r') as [a [b Eb]]. rewrite Er in Eb. inversion Eb; subst k' xs' t.
          apply edge_eqb_false in E. apply E. apply edge_leb_antisym; [apply Hmin; left; reflexivity|].
          destruct Hk as [Hk|Hk]; [cbn in Hk; congruence|].
          inversion Hr as [|? ? _ H1]; subst. apply in_map_iff in Hk. destruct Hk as [p [<- Hp]].
          rewrite Forall_forall in H1. apply (H1 p Hp). }
        split.
        -- cbn. constructor; [|exact Hnd]. intros H. apply Hk0. apply runs_keys_sub. rewrite Er. exact H.
        -- intros k xs. rewrite Hof. split.
           ++ intros [H|H].
              ** inversion H; subst. rewrite edge_eqb_refl, (of_key_absent k r Hk0). split; [discriminate|reflexivity].
              ** assert (Hk : k0 <> k).
                 { intros ->. apply Hk0. apply runs_keys_sub. rewrite Er. apply in_map_iff. exists (k, xs). auto. }
                 apply edge_eqb_false in Hk. rewrite Hk. apply Hin. exact H.
           ++ intros [Hne ->]. destruct (edge_eqb k0 k) eqn:Ek.
              ** apply edge_eqb_iff in Ek; subst k. left. rewrite (of_key_absent k0 r Hk0). reflexivity.
              ** right. apply Hin. auto.
Qed.

Lemma sorted_runs_spec l :
  NoDup (map fst (runs (lexsort l))) /\
  forall k xs, In (k, xs) (runs (lexsort l)) <-> xs <> [] /\ xs = of_key k l.
Proof.
  destruct (runs_spec (lexsort l) (lexsort_sorted l)) as [H1 H2]. split; [exact H1|].
  intros k xs. rewrite H2, of_key_sort. reflexivity.
Qed.
End Runs.

Section Symmetrize.
Context {W : Type}.
Variable maxW avgW : W -> W -> W.
Implicit Types l : list (edge * W).

Lemma copies_of_key l i j : copies l i j = of_key (i, j) l.
Proof. reflexivity. Qed.

Lemma directed_spec l :
  NoDup (map fst (directed maxW l)) /\
  forall i j w, In ((i, j), w) (directed maxW l) <-> strongest maxW l i j = Some w.
Proof.
  destruct (sorted_runs_spec l) as [Hnd Hin]. unfold directed.
  assert (H : NoDup (map fst (reduce_runs maxW (runs (lexsort l)))) /\
              (forall k, In k (map fst (reduce_runs maxW (runs (lexsort l)))) -> In k (map fst (runs (lexsort l)))) /\
              forall k w, In (k, w) (reduce_runs maxW (runs (lexsort l))) <->
                          exists xs, In (k, xs) (runs (lexsort l)) /\ reduce maxW xs = Some w).
  { revert Hnd. clear Hin. generalize (runs (lexsort l)) as rs.
    induction rs as [|[k xs] r IH]; cbn [reduce_runs map]; intros Hnd.
    - split; [constructor|split; [intros k []|]]. intros k w; split; [intros []|intros [xs [[] _]]].
    - inversion Hnd as [|? ? Hni Hnd']; subst. destruct (IH Hnd') as (IH1 & IH2 & IH3).
      destruct (reduce maxW xs) as [v|] eqn:Ev.
      + split; [cbn; constructor; [intros Hk; apply Hni, IH2, Hk|exact IH1]|].
        split; [intros k' [H|H]; [left; exact H|right; apply IH2, H]|].
        intros k' w. split.
        * intros [H|H].
          -- inversion H; subst. exists xs. split; [left; reflexivity|exact Ev].
          -- apply IH3 in H. destruct H as [ys [H1 H2]]. exists ys. split; [right; exact H1|exact H2].
        * intros [ys [[H|H] H2]].
          -- inversion H; subst. left. congruence.
          -- right. apply IH3. exists ys. auto.
      + split; [exact IH1|]. split; [intros k' H; right; apply IH2, H|].
        intros k' w. rewrite IH3. split.
        * intros [ys [H1 H2]]. exists ys. split; [right; exact H1|exact H2].
        * intros [ys [[H|H] H2]]; [inversion H; congruence|]. exists ys. auto. }
  destruct H as (H1 & _ & H3). split; [exact H1|].
  intros i j w. rewrite H3. unfold strongest. rewrite copies_of_key. split.
  - intros [xs [Hx Hr]]. apply Hin in Hx. destruct Hx as [Hne ->]. exact Hr.
  - intros H. exists (of_key (i, j) l). split; [|exact H].
    apply Hin. split; [|reflexivity]. intros E. rewrite E in H. discriminate.
Qed.

Lemma in_loops l i j w :
  In ((i, j), w) (filter is_loop (directed maxW l)) <-> i = j /\ strongest maxW l i j = Some w.
Proof.
  rewrite filter_In. destruct (directed_spec l) as [_ H]. rewrite H. unfold is_loop; cbn.
  rewrite Z.eqb_eq. tauto.
Qed.
Lemma in_nonloops l i j w :
  In ((i, j), w) (filter (fun p => negb (is_loop p)) (directed maxW l)) <-> i <> j /\ strongest maxW l i j = Some w.
Proof.
  rewrite filter_In. destruct (directed_spec l) as [_ H]. rewrite H. unfold is_loop; cbn.
  rewrite negb_true_iff, Z.eqb_neq. tauto.
Qed.

(* last assignment into a slot that receives at most one value *)
Lemma last_of_unique b (xs : list (bool * W)) v acc :
  (forall u, In (b, u) xs -> u = v) -> In (b, v) xs -> last_of b xs acc = Some v.
Proof.
  revert acc. induction xs as [|[b' u] r IH]; intros acc Hu Hin; [destruct Hin|]. cbn.
  destruct (Bool.eqb b' b) eqn:E.
  - apply eqb_prop in E; subst b'. assert (u = v) by (apply Hu; left; reflexivity). subst u.
    clear Hin. assert (Hr : forall u, In (b, u) r -> u = v) by (intros; apply Hu; right; auto).
    clear IH Hu. assert (H : forall acc, acc = Some v -> last_of b r acc = Some v).
    { induction r as [|[c u] r IH]; intros a Ha; [exact Ha|]. cbn. apply IH.
      - intros u' Hu'. apply Hr. right; exact Hu'.
      - destruct (Bool.eqb c b) eqn:E; [|exact Ha]. apply eqb_prop in E; subst.
        f_equal. apply Hr. left; reflexivity. }
    apply H. reflexivity.
  - apply IH; [intros u' H; apply Hu; right; exact H|].
    destruct Hin as [H|H]; [|exact H]. inversion H; subst. rewrite eqb_reflx in E. discriminate.
Qed.
Lemma last_of_none b (xs : list (bool * W)) acc :
  (forall u, ~ In (b, u) xs) -> last_of b xs acc = acc.
Proof.
  revert acc. induction xs as [|[b' u] r IH]; intros acc Hn; [reflexivity|]. cbn.
  destruct (Bool.eqb b' b) eqn:E.
  - apply eqb_prop in E; subst. exfalso. apply (Hn u). left; reflexivity.
  - apply IH. intros u' H. apply (Hn u'). right; exact H.
Qed.

Definition canon l := map canonical (filter (fun p => negb (is_loop p)) (directed maxW l)).

Lemma in_of_key {X} (ls : list (edge * X)) k x : In x (of_key k ls) <-> In (k, x) ls.
Proof.
  unfold of_key. rewrite in_map_iff. split.
  - intros [[k' x'] [<- H]]. apply filter_In in H. destruct H as [H E]. apply edge_eqb_iff in E.
    cbn in *; subst. exact H.
  - intros H. exists (k, x). split; [reflexivity|]. apply filter_In. split; [exact H|apply edge_eqb_refl].
Qed.

Lemma in_canon l a b f w :
  In (a, b, (f, w)) (canon l) <->
  a < b /\ strongest maxW l (if f : bool then a else b) (if f then b else a) = Some w.
Proof.
  unfold canon. rewrite in_map_iff. split.
  - intros [[[s d] v] [E H]]. apply in_nonloops in H. destruct H as [Hne H]. cbn in E.
    injection E as E1 E2 E3 E4. subst v.
    destruct (Z.eqb_spec s (Z.min s d)) as [Es|Es]; subst f.
    + replace a with s by lia. replace b with d by lia. split; [lia|exact H].
    + replace a with d by lia. replace b with s by lia. split; [lia|exact H].
  - intros [Hab H]. destruct f.
    + exists (a, b, w). split; [|apply in_nonloops; split; [lia|exact H]]. cbn.
      rewrite Z.min_l, Z.max_r by lia. rewrite Z.eqb_refl. reflexivity.
    + exists (b, a, w). split; [|apply in_nonloops; split; [lia|exact H]]. cbn.
      rewrite Z.min_r, Z.max_l by lia. replace (b =? a) with false by lia. reflexivity.
Qed.

Definition is_mutual (m : sym_mode) : bool := match m with SymMutual => true | _ => false end.

Lemma pair_weight_spec m l a b : a < b ->
  pair_weight avgW m (of_key (a, b) (canon l)) = undirected_weight maxW avgW (is_mutual m) l a b.
Proof.
  intros Hab. unfold pair_weight, undirected_weight.
  replace (a =? b) with false by lia. rewrite Z.min_l, Z.max_r by lia.
  assert (Hf : forall f : bool, last_of f (of_key (a, b) (canon l)) None
             = strongest maxW l (if f then a else b) (if f then b else a)).
  { intros f. destruct (strongest maxW l (if f then a else b) (if f then b else a)) as [v|] eqn:E.
    - apply last_of_unique.
      + intros u Hu. apply in_of_key, in_canon in Hu. destruct Hu as [_ Hu]. congruence.
      + apply in_of_key, in_canon. auto.
    - apply last_of_none. intros u Hu. apply in_of_key, in_canon in Hu. destruct Hu as [_ Hu]. congruence. }
  rewrite (Hf true), (Hf false).
  destruct (strongest maxW l a b), (strongest maxW l b a), m; reflexivity.
Qed.

Definition sym_pairs m l := keep_pairs avgW m (runs (lexsort (canon l))).

Lemma sym_pairs_spec m l :
  NoDup (map fst (sym_pairs m l)) /\
  forall a b w, In ((a, b), w) (sym_pairs m l) <->
    a < b /\ undirected_weight maxW avgW (is_mutual m) l a b = Some w.
Proof.
  destruct (sorted_runs_spec (canon l)) as [Hnd Hin]. unfold sym_pairs.
  assert (H : NoDup (map fst (keep_pairs avgW m (runs (lexsort (canon l))))) /\
              (forall k, In k (map fst (keep_pairs avgW m (runs (lexsort (canon l))))) -> In k (map fst (runs (lexsort (canon l))))) /\
              forall k w, In (k, w) (keep_pairs avgW m (runs (lexsort (canon l)))) <->
                          exists xs, In (k, xs) (runs (lexsort (canon l))) /\ pair_weight avgW m xs = Some w).
  { revert Hnd. clear Hin. generalize (runs (lexsort (canon l))) as rs.
    induction rs as [|[k xs] r IH]; cbn [keep_pairs map]; intros Hnd.
    - split; [constructor|split; [intros k []|]]. intros k w; split; [intros []|intros [xs [[] _]]].
    - inversion Hnd as [|? ? Hni Hnd']; subst. destruct (IH Hnd') as (IH1 & IH2 & IH3).
      destruct (pair_weight avgW m xs) as [v|] eqn:Ev.
      + split; [cbn; constructor; [intros Hk; apply Hni, IH2, Hk|exact IH1]|].
        split; [intros k' [H|H]; [left; exact H|right; apply IH2, H]|].
        intros k' w. split.
        * intros [H|H].
          -- inversion H; subst. exists xs. split; [left; reflexivity|exact Ev].
          -- apply IH3 in H. destruct H as [ys [H1 H2]]. exists ys. split; [right; exact H1|exact H2].
        * intros [ys [[H|H] H2]].
          -- inversion H; subst. left. congruence.
          -- right. apply IH3. exists ys. auto.
      + split; [exact IH1|]. split; [intros k' H; right; apply IH2, H|].
        intros k' w. rewrite IH3. split.
        * intros [ys [H1 H2]]. exists ys. split; [right; exact H1|exact H2].
        * intros [ys [[H|H] H2]]; [inversion H; congruence|]. exists ys. auto. }
  destruct H as (H1 & _ & H3). split; [exact H1|].
  intros a b w. rewrite H3. split.
  - intros [xs [Hx Hr]]. apply Hin in Hx. destruct Hx as [Hne Hx].
    assert (Hab : a < b).
    { destruct xs as [|[f u] r]; [contradiction|].
      assert (H : In (f, u) (of_key (a, b) (canon l))) by (rewrite <- Hx; left; reflexivity).
      apply in_of_key, in_canon in H. apply H. }
    subst xs. split; [exact Hab|]. rewrite <- pair_weight_spec by exact Hab. exact Hr.
  - intros [Hab H]. rewrite <- pair_weight_spec in H by exact Hab.
    exists (of_key (a, b) (canon l)). split; [|exact H]. apply Hin. split; [|reflexivity].
    intros E. rewrite E in H. discriminate.
Qed.

Lemma undirected_comm b l i j : undirected_weight maxW avgW b l i j = undirected_weight maxW avgW b l j i.
Proof.
  unfold undirected_weight. rewrite (Z.eqb_sym j i), (Z.min_comm j i), (Z.max_comm j i).
  destruct (Z.eqb_spec i j); [subst; reflexivity|]. reflexivity.
Qed.

Lemma strongest_some l i j : (exists w, strongest maxW l i j = Some w) <-> In (i, j) (map fst l).
Proof.
  unfold strongest. rewrite copies_of_key. rewrite in_map_iff. split.
  - intros [w H]. destruct (of_key (i, j) l) as [|x r] eqn:E; [discriminate|].
    exists (i, j, x). split; [reflexivity|]. apply in_of_key. rewrite E. left; reflexivity.
  - intros [[k x] [Hk H]]. cbn in Hk; subst k. apply in_of_key in H.
    destruct (of_key (i, j) l) as [|y r]; [destruct H|]. eauto.
Qed.

Lemma undirected_some b l i j : (exists w, undirected_weight maxW avgW b l i j = Some w) <->
  (if b then In (i, j) (map fst l) /\ In (j, i) (map fst l) else In (i, j) (map fst l) \/ In (j, i) (map fst l)).
Proof.
  transitivity (if b then (exists w, strongest maxW l i j = Some w) /\ (exists w, strongest maxW l j i = Some w)
                else (exists w, strongest maxW l i j = Some w) \/ (exists w, strongest maxW l j i = Some w)).
  2:{ pose proof (strongest_some l i j). pose proof (strongest_some l j i). destruct b; tauto. }
  unfold undirected_weight.
  destruct (Z.eqb_spec i j) as [->|Hn]; [destruct b; tauto|].
  assert (Hmm : (Z.min i j = i /\ Z.max i j = j) \/ (Z.min i j = j /\ Z.max i j = i)) by lia.
  destruct Hmm as [[-> ->]|[-> ->]];
    destruct (strongest maxW l i j) as [x|], (strongest maxW l j i) as [y|], b;
    (split; [intros [w H]; try discriminate; eauto|
             try (intros [[? ?] [? ?]]; discriminate); try (intros [[? ?]|[? ?]]; discriminate); eauto]).
Qed.

Lemma undirected_range n b l i j w : nodes_in n l ->
  undirected_weight maxW avgW b l i j = Some w -> 0 <= i < n /\ 0 <= j < n.
Proof.
  intros Hn H. assert (Hs : In (i, j) (map fst l) \/ In (j, i) (map fst l)).
  { assert (H' : exists w, undirected_weight maxW avgW b l i j = Some w) by eauto.
    apply undirected_some in H'. destruct b; tauto. }
  destruct Hs as [Hs|Hs]; apply in_map_iff in Hs; destruct Hs as [[k x] [Hk Hx]]; cbn in Hk; subst k;
    apply Hn in Hx; tauto.
Qed.

Lemma symmetrize_spec n m l : nodes_in n l -> m <> SymNone ->
  NoDup (map fst (symmetrize maxW avgW n m l)) /\
  forall i j w, In ((i, j), w) (symmetrize maxW avgW n m l) <->
                undirected_weight maxW avgW (is_mutual m) l i j = Some w.
Proof.
  intros Hn Hm.
  assert (E : symmetrize maxW avgW n m l =
              map (fun p => (clip_edge n (fst p), snd p))
                (sym_pairs m l ++ map flip (sym_pairs m l) ++ filter is_loop (directed maxW l))).
  { destruct m; [contradiction|reflexivity|reflexivity]. }
  set (out := sym_pairs m l ++ map flip (sym_pairs m l) ++ filter is_loop (directed maxW l)) in *.
  destruct (sym_pairs_spec m l) as [Hnd Hin].
  assert (Hout : forall i j w, In ((i, j), w) out <-> undirected_weight maxW avgW (is_mutual m) l i j = Some w).
  { intros i j w. unfold out. rewrite !in_app_iff, Hin, in_loops, in_map_iff. split.
    - intros [[_ H]|[[[[a b] v] [H1 H2]]|[-> H]]].
      + exact H.
      + unfold flip in H1; cbn in H1. inversion H1; subst. apply Hin in H2.
        rewrite undirected_comm. apply H2.
      + unfold undirected_weight. rewrite Z.eqb_refl. exact H.
    - intros H. destruct (Z.lt_trichotomy i j) as [Hl|[->|Hl]].
      + left. auto.
      + right; right. unfold undirected_weight in H. rewrite Z.eqb_refl in H. auto.
      + right; left. exists (j, i, w). split; [reflexivity|]. apply Hin. split; [exact Hl|].
        rewrite undirected_comm. exact H. }
  assert (Hclip : forall p, In p out -> (clip_edge n (fst p), snd p) = p).
  { intros [[i j] w] H. apply Hout in H. apply (undirected_range n) in H; [|exact Hn].
    unfold clip_edge. cbn. f_equal. f_equal; lia. }
  assert (E2 : symmetrize maxW avgW n m l = out).
  { rewrite E. rewrite <- (map_id out) at 2. apply map_ext_in. exact Hclip. }
  rewrite E2. split; [|exact Hout].
  unfold out. rewrite !map_app, map_map.
  rewrite NoDup_app_iff, NoDup_app_iff. split; [exact Hnd|]. split; [split; [|split]|].
  - assert (H : map (fun x => fst (@flip W x)) (sym_pairs m l)
               = map (fun e : edge => (snd e, fst e)) (map fst (sym_pairs m l))).
    { rewrite map_map. reflexivity. }
    rewrite H. clear H. revert Hnd. generalize (map fst (sym_pairs m l)) as ks.
    induction ks as [|k r IH]; cbn; intros Hk; [constructor|].
    inversion Hk as [|? ? Hni Hr]; subst. constructor; [|apply IH; exact Hr].
    intros H. apply in_map_iff in H. destruct H as [[a b] [H1 H2]]. destruct k; cbn in *.
    inversion H1; subst. contradiction.
  - destruct (directed_spec l) as [Hd _]. revert Hd. generalize (directed maxW l) as d.
    induction d as [|p r IH]; cbn; intros Hd; [constructor|].
    inversion Hd as [|? ? Hni Hr]; subst. destruct (is_loop p); cbn; [|apply IH; exact Hr].
    constructor; [|apply IH; exact Hr]. intros H. apply Hni.
    apply in_map_iff in H. destruct H as [q [Hq H]]. apply filter_In in H.
    apply in_map_iff. exists q. tauto.
  - intros x H1 H2. apply in_map_iff in H1. destruct H1 as [[[a b] w] [Hx H1]].
    apply in_map_iff in H2. destruct H2 as [[[c d] v] [Hy H2]].
    apply Hin in H1. apply in_loops in H2. destruct H1 as [H1 _], H2 as [H2 _]. cbn in *. subst x. inversion Hy; subst. lia.
  - intros x H1 H2. apply in_map_iff in H1. destruct H1 as [[[a b] w] [Hx H1]].
    apply Hin in H1. cbn in Hx. subst x. apply in_app_or in H2. destruct H2 as [H2|H2].
    + apply in_map_iff in H2. destruct H2 as [[[c d] v] [Hy H2]]. apply Hin in H2. cbn in Hy.
      inversion Hy; subst. lia.
    + apply in_map_iff in H2. destruct H2 as [[[c d] v] [Hy H2]]. apply in_loops in H2. cbn in Hy.
      inversion Hy; subst. lia.
Qed.

Lemma strongest_unique l i j w : NoDup (map fst l) -> In ((i, j), w) l -> strongest maxW l i j = Some w.
Proof.
  intros Hnd Hin. unfold strongest. rewrite copies_of_key.
  enough (of_key (i, j) l = [w]) as -> by reflexivity.
  revert Hnd Hin. induction l as [|[k x] r IH]; [intros _ []|]. cbn [map].
  intros Hnd Hin. inversion Hnd as [|? ? Hni Hr]; subst.
  unfold of_key in *. cbn [filter]. cbn [fst] in *. destruct Hin as [H|H].
  - inversion H; subst. rewrite edge_eqb_refl. cbn. f_equal.
    apply (of_key_absent (i, j) r). exact Hni.
  - destruct (edge_eqb k (i, j)) eqn:E; [|apply IH; assumption].
    apply edge_eqb_iff in E; subst. exfalso. apply Hni. apply in_map_iff. exists (i, j, w). auto.
Qed.

(* symmetrising a symmetrised list again changes nothing *)
Lemma symmetrize_idem n m m' l : nodes_in n l -> m <> SymNone -> m' <> SymNone ->
  (forall x, avgW x x = x) ->
  forall i j w, In ((i, j), w) (symmetrize maxW avgW n m' (symmetrize maxW avgW n m l)) <->
                In ((i, j), w) (symmetrize maxW avgW n m l).
Proof.
  intros Hn Hm Hm' Havg. destruct (symmetrize_spec n m l Hn Hm) as [Hnd Hin].
  set (o := symmetrize maxW avgW n m l) in *.
  assert (Hno : nodes_in n o).
  { intros i j w H. apply Hin in H. eapply undirected_range; eassumption. }
  destruct (symmetrize_spec n m' o Hno Hm') as [_ Hin'].
  assert (Hs : forall i j, strongest maxW o i j = undirected_weight maxW avgW (is_mutual m) l i j).
  { intros i j. destruct (undirected_weight maxW avgW (is_mutual m) l i j) as [w|] eqn:E.
    - apply strongest_unique; [exact Hnd|]. apply Hin. exact E.
    - destruct (strongest maxW o i j) as [w|] eqn:E2; [|reflexivity]. exfalso.
      assert (H : exists w, strongest maxW o i j = Some w) by eauto.
      apply strongest_some in H. apply in_map_iff in H. destruct H as [[k v] [Hk H]]. cbn in Hk; subst k.
      apply Hin in H. congruence. }
  intros i j w. rewrite Hin', Hin. unfold undirected_weight at 1. rewrite !Hs.
  destruct (Z.eqb_spec i j) as [->|Hne]; [reflexivity|].
  rewrite (undirected_comm _ _ (Z.max i j)).
  assert (Hu : undirected_weight maxW avgW (is_mutual m) l (Z.min i j) (Z.max i j)
               = undirected_weight maxW avgW (is_mutual m) l i j).
  { destruct (Z.leb_spec i j); [rewrite Z.min_l, Z.max_r by lia; reflexivity|].
    rewrite Z.min_r, Z.max_l by lia. apply undirected_comm. }
  rewrite Hu. destruct (undirected_weight maxW avgW (is_mutual m) l i j); [rewrite Havg|]; reflexivity.
Qed.
End Symmetrize.

(* ------------------------------------------------------------------------------ self loops *)
Lemma wrap_all_id n l : Forall (fun i => 0 <= i < n) l -> wrap_all n l = Ok l.
Proof.
  induction 1 as [|i r Hi _ IH]; [reflexivity|]. cbn. unfold wrap.
  replace ((- n <=? i) && (i <? n)) with true by lia. replace (i <? 0) with false by lia.
  cbn. rewrite IH. reflexivity.
Qed.

Definition missing_loops (n : Z) (edges : list edge) : list Z :=
  filter (fun i => negb (memZ i (map fst (filter (fun e => fst e =? snd e) edges)))) (arange n).

Lemma in_loop_nodes edges i :
  In i (map fst (filter (fun e : edge => fst e =? snd e) edges)) <-> In (i, i) edges.
Proof.
  rewrite in_map_iff. split.
  - intros [[a b] [<- H]]. apply filter_In in H. cbn in *. destruct H as [H E].
    apply Z.eqb_eq in E; subst. exact H.
  - intros H. exists (i, i). split; [reflexivity|]. apply filter_In. split; [exact H|]. cbn. apply Z.eqb_refl.
Qed.

Lemma in_missing n edges i : In i (missing_loops n edges) <-> 0 <= i < n /\ ~ In (i, i) edges.
Proof.
  unfold missing_loops. rewrite filter_In, arange_In, negb_true_iff, memZ_false, in_loop_nodes. reflexivity.
Qed.
Lemma missing_sorted n edges : StronglySorted Z.lt (missing_loops n edges).
Proof. apply StronglySorted_filter, arange_ascending. Qed.

Lemma add_self_loops_eq {W} n (weight : W) edges w :
  (forall i, In (i, i) edges -> 0 <= i < n) ->
  add_self_loops n weight edges w =
  Ok (edges ++ map (fun i => (i, i)) (missing_loops n edges),
      match w with None => None | Some ws => Some (ws ++ map (fun _ => weight) (missing_loops n edges)) end).
Proof.
  intros Hr. unfold add_self_loops. rewrite wrap_all_id.
  2:{ apply Forall_forall. intros i Hi. apply in_loop_nodes in Hi. auto. }
  cbn [bind]. fold (missing_loops n edges).
  destruct (missing_loops n edges) as [|a r]; [|reflexivity]. cbn. rewrite app_nil_r.
  destruct w; [rewrite app_nil_r|]; reflexivity.
Qed.

(* ------------------------------------------------------------------------------- normalise *)
Local Open Scope Q_scope.

Lemma degree_outgoing edges w i : degree edges w i == sumQ (outgoing edges w i).
Proof.
  revert w. induction edges as [|e er IH]; intros [|x xr]; cbn; try reflexivity.
  unfold outgoing in *. cbn [combine filter fst snd]. rewrite (IH xr).
  destruct (fst e =? i)%Z; cbn [map sumQ fold_right snd]; [reflexivity|apply Qplus_0_l].
Qed.

Lemma combine_map_snd {A B C} (f : A * B -> C) (l : list A) (m : list B) :
  combine l (map f (combine l m)) = map (fun p => (fst p, f p)) (combine l m).
Proof.
  revert m. induction l as [|a l IH]; intros [|b m]; cbn; try reflexivity. rewrite IH. reflexivity.
Qed.

Lemma outgoing_scaled edges w (c : Q) (f : edge * Q -> Q) i :
  (forall p, fst (fst p) = i -> f p == snd p * c) ->
  sumQ (outgoing edges (map f (combine edges w)) i) == sumQ (outgoing edges w i) * c.
Proof.
  intros Hf. unfold outgoing. rewrite combine_map_snd.
  induction (combine edges w) as [|p r IH]; [cbn; ring|].
  cbn [map filter fst snd]. unfold edge in *. destruct (fst (fst p) =? i)%Z eqn:E; [|exact IH].
  cbn [map snd sumQ fold_right]. fold sumQ.
  match goal with |- _ + fold_right Qplus 0 ?a == (_ + fold_right Qplus 0 ?b) * _ =>
    change (fold_right Qplus 0 a) with (sumQ a); change (fold_right Qplus 0 b) with (sumQ b) end.
  apply Z.eqb_eq in E. rewrite (Hf p E), IH. ring.
Qed.

Lemma rw_row_sum f edges ws out eps i :
  normalize f edges (Some ws) NormRw eps = Some out ->
  sumQ (outgoing edges out i)
  == sumQ (outgoing edges ws i) * (1 / Qmax (sumQ (outgoing edges ws i)) eps).
Proof.
  intros H. injection H as <-.
  apply outgoing_scaled with (c := 1 / Qmax (sumQ (outgoing edges ws i)) eps).
  intros p Hp. rewrite Hp, (degree_outgoing edges ws i). reflexivity.
Qed.

Lemma rw_stochastic f edges ws out eps i :
  normalize f edges (Some ws) NormRw eps = Some out ->
  0 < eps -> eps <= sumQ (outgoing edges ws i) ->
  sumQ (outgoing edges out i) == 1.
Proof.
  intros H He Hd. rewrite (rw_row_sum _ _ _ _ _ _ H).
  rewrite Q.max_l by exact Hd. field. intros E. rewrite E in Hd.
  apply (Qlt_not_le _ _ He). exact Hd.
Qed.

Lemma rw_length f edges ws out eps :
  normalize f edges (Some ws) NormRw eps = Some out -> length ws = length edges ->
  length out = length edges.
Proof.
  intros H Hl. injection H as <-. rewrite map_length, combine_length. lia.
Qed.

Lemma normalize_length f edges ws out mode eps :
  normalize f edges (Some ws) mode eps = Some out -> length ws = length edges ->
  length out = length edges.
Proof.
  intros H Hl. destruct mode; injection H as <-; [exact Hl| |];
    rewrite map_length, combine_length; lia.
Qed.
Lemma normalize_some f edges ws mode eps : exists out, normalize f edges (Some ws) mode eps = Some out.
Proof. destruct mode; cbn; eauto. Qed.

(* -------------------------------------------------------------------------------- pipeline *)
Local Open Scope Z_scope.
Lemma make_artifact_iff n (edges : list edge) w d : (exists a, make_artifact n edges w d = Ok a) <->
  (forall i j, In (i, j) edges -> 0 <= i < n /\ 0 <= j < n) /\ (forall ws, w = Some ws -> length ws = length edges).
Proof.
  unfold make_artifact.
  assert (E : existsb (fun e : edge => (fst e <? 0) || (n <=? fst e) || (snd e <? 0) || (n <=? snd e)) edges = false <->
              forall i j, In (i, j) edges -> 0 <= i < n /\ 0 <= j < n).
  { split.
    - intros H i j Hij. destruct ((i <? 0) || (n <=? i) || (j <? 0) || (n <=? j)) eqn:Eb; [|lia]. exfalso.
      assert (existsb (fun e : edge => (fst e <? 0) || (n <=? fst e) || (snd e <? 0) || (n <=? snd e)) edges = true); [|congruence].
      apply existsb_exists. exists (i, j). auto.
    - intros H. destruct (existsb _ edges) eqn:Eb; [|reflexivity]. apply existsb_exists in Eb. destruct Eb as ([i j] & Hij & Hb).
      specialize (H i j Hij). cbn [fst snd] in Hb. lia. }
  rewrite <- E. clear E. destruct (existsb _ edges).
  - split; [intros [a H]; discriminate|intros [H _]; discriminate].
  - unfold lenZ. destruct w as [ws|].
    + destruct (Z.eqb_spec (Z.of_nat (length ws)) (Z.of_nat (length edges))) as [Hl|Hl]; cbn [negb].
      * split; [intros _; split; [reflexivity|intros ws' [= <-]; lia]|eauto].
      * split; [intros [a H]; discriminate|]. intros [_ H]. specialize (H ws eq_refl). lia.
    + split; [intros _; split; [reflexivity|discriminate]|eauto].
Qed.
Lemma make_artifact_ok n (edges : list edge) w d a :
  make_artifact n edges w d = Ok a ->
  a = {| ga_n := n; ga_edges := edges; ga_weights := w; ga_directed := d |} /\
  (forall i j, In (i, j) edges -> 0 <= i < n /\ 0 <= j < n) /\
  (forall ws, w = Some ws -> length ws = length edges).
Proof.
  unfold make_artifact. destruct (existsb _ edges) eqn:E; [discriminate|]. intros H.
  assert (Hr : forall i j, In (i, j) edges -> 0 <= i < n /\ 0 <= j < n).
  { intros i j Hij. assert (Hb : ((i <? 0) || (n <=? i) || (j <? 0) || (n <=? j)) = false).
    { destruct (_ || _ || _ || _) eqn:Eb; [|reflexivity]. exfalso.
      assert (existsb (fun e : edge => (fst e <? 0) || (n <=? fst e) || (snd e <? 0) || (n <=? snd e)) edges = true).
      { apply existsb_exists. exists (i, j). split; assumption. }
      congruence. }
    lia. }
  destruct w as [ws|].
  - destruct (negb _) eqn:El; [discriminate|]. injection H as <-. split; [reflexivity|]. split; [exact Hr|].
    intros ws' E'. injection E' as <-. unfold lenZ in El. lia.
  - injection H as <-. split; [reflexivity|]. split; [exact Hr|discriminate].
Qed.

Lemma make_artifact_total n (edges : list edge) w d :
  (forall i j, In (i, j) edges -> 0 <= i < n /\ 0 <= j < n) ->
  (forall ws, w = Some ws -> length ws = length edges) ->
  make_artifact n edges w d = Ok {| ga_n := n; ga_edges := edges; ga_weights := w; ga_directed := d |}.
Proof.
  intros Hr Hl. unfold make_artifact.
  destruct (existsb _ edges) eqn:E.
  - exfalso. apply existsb_exists in E. destruct E as [[i j] [Hin E]]. apply Hr in Hin. cbn in E. lia.
  - destruct w as [ws|]; [|reflexivity]. specialize (Hl ws eq_refl). unfold lenZ.
    replace (Z.of_nat (length ws) =? Z.of_nat (length edges)) with true by lia. reflexivity.
Qed.

Lemma or_not_none : SymOr <> SymNone. Proof. discriminate. Qed.
Lemma mutual_not_none : SymMutual <> SymNone. Proof. discriminate. Qed.

Lemma symmetrize_nodes n sym raw : nodes_in n raw ->
  nodes_in n (symmetrize Qmax q_avg n sym raw).
Proof.
  intros Hn. destruct sym; [exact Hn| |];
  (intros i j w H; eapply (undirected_range Qmax q_avg n _ raw); [exact Hn|];
   first [apply (proj2 (symmetrize_spec Qmax q_avg n _ raw Hn or_not_none)), H
         |apply (proj2 (symmetrize_spec Qmax q_avg n _ raw Hn mutual_not_none)), H]).
Qed.

(* the edge list and weights before normalisation *)
Definition looped (n : Z) (sl : bool) (s : list (edge * Q)) : list edge * list Q :=
  if sl then (map fst s ++ map (fun i => (i, i)) (missing_loops n (map fst s)),
              map snd s ++ map (fun _ => 1%Q) (missing_loops n (map fst s)))
  else (map fst s, map snd s).

Lemma post_process_eq f n sym sl nm eps raw : nodes_in n raw ->
  let lw := looped n sl (symmetrize Qmax q_avg n sym raw) in
  post_process f n sym sl nm eps raw =
  Ok {| ga_n := n; ga_edges := fst lw;
        ga_weights := normalize f (fst lw) (Some (snd lw)) nm eps;
        ga_directed := match sym with SymNone => true | _ => false end |} /\
  length (snd lw) = length (fst lw) /\
  (forall i j, In (i, j) (fst lw) -> 0 <= i < n /\ 0 <= j < n).
Proof.
  intros Hn lw. pose proof (symmetrize_nodes n sym raw Hn) as Hs. unfold post_process.
  set (s := symmetrize Qmax q_avg n sym raw) in *.
  assert (Hrs : forall i j, In (i, j) (map fst s) -> 0 <= i < n /\ 0 <= j < n).
  { intros i j H. apply in_map_iff in H. destruct H as [[e w] [He H]]. cbn in He; subst e. eapply Hs, H. }
  assert (Hlen : length (snd lw) = length (fst lw)).
  { unfold lw, looped. destruct sl; cbn; rewrite ?app_length, !map_length; reflexivity. }
  assert (Hrange : forall i j, In (i, j) (fst lw) -> 0 <= i < n /\ 0 <= j < n).
  { unfold lw, looped. destruct sl; cbn [fst]; [|exact Hrs]. intros i j H. apply in_app_or in H.
    destruct H as [H|H]; [apply Hrs, H|]. apply in_map_iff in H. destruct H as [k [E H]].
    apply in_missing in H. inversion E; subst. tauto. }
  split; [|split; [exact Hlen|exact Hrange]].
  assert (E : (if sl then add_self_loops n 1%Q (map fst s) (Some (map snd s))
               else Ok (map fst s, Some (map snd s))) = Ok (fst lw, Some (snd lw))).
  { unfold lw, looped. destruct sl; [|reflexivity].
    rewrite add_self_loops_eq; [reflexivity|]. intros i Hi. apply Hrs in Hi. tauto. }
  rewrite E. cbn [bind]. apply make_artifact_total; [exact Hrange|].
  intros ws Hw. eapply normalize_length; eassumption.
Qed.

Local Open Scope Q_scope.
Lemma sumQ_nonneg l : Forall (fun x => 0 <= x) l -> 0 <= sumQ l.
Proof.
  induction 1 as [|x r Hx _ IH]; cbn; [apply Qle_refl|].
  change 0 with (0 + 0). apply Qplus_le_compat; assumption.
Qed.
Lemma sumQ_ge_member l x : Forall (fun x => 0 <= x) l -> In x l -> x <= sumQ l.
Proof.
  induction 1 as [|y r Hy Hr IH]; [intros []|]. intros [->|H]; cbn.
  - rewrite <- (Qplus_0_r x) at 1. apply Qplus_le_compat; [apply Qle_refl|apply sumQ_nonneg; exact Hr].
  - rewrite <- (Qplus_0_l x). apply Qplus_le_compat; [exact Hy|]. apply IH, H.
Qed.
Lemma outgoing_forall P edges w i : Forall P w -> Forall P (outgoing edges w i).
Proof.
  intros H. unfold outgoing. apply Forall_forall. intros x Hx. apply in_map_iff in Hx.
  destruct Hx as [[e y] [<- Hx]]. apply filter_In in Hx. destruct Hx as [Hx _].
  apply in_combine_r in Hx. rewrite Forall_forall in H. exact (H _ Hx).
Qed.

Lemma fold_max_nonneg l a : 0 <= a -> Forall (fun x => 0 <= x) l -> 0 <= fold_left Qmax l a.
Proof.
  intros Ha H. revert a Ha. induction H as [|x r Hx _ IH]; intros a Ha; [exact Ha|]. cbn. apply IH.
  eapply Qle_trans; [exact Ha|apply Q.le_max_l].
Qed.
Lemma q_avg_nonneg x y : 0 <= x -> 0 <= y -> 0 <= q_avg x y.
Proof.
  intros Hx Hy. unfold q_avg. apply Qmult_le_0_compat; [discriminate|].
  change 0 with (0 + 0). apply Qplus_le_compat; assumption.
Qed.
Lemma strongest_nonneg raw i j w : Forall (fun p => 0 <= snd p) raw ->
  strongest Qmax raw i j = Some w -> 0 <= w.
Proof.
  intros H. unfold strongest.
  assert (Hc : Forall (fun x => 0 <= x) (copies raw i j)).
  { apply Forall_forall. intros x Hx. unfold copies in Hx. apply in_map_iff in Hx.
    destruct Hx as [p [<- Hp]]. apply filter_In in Hp. rewrite Forall_forall in H. apply H, Hp. }
  destruct (copies raw i j) as [|x r]; [discriminate|]. intros E. injection E as <-.
  inversion Hc; subst. apply fold_max_nonneg; assumption.
Qed.
Lemma symmetrize_nonneg n sym raw : nodes_in n raw -> Forall (fun p => 0 <= snd p) raw ->
  Forall (fun p => 0 <= snd p) (symmetrize Qmax q_avg n sym raw).
Proof.
  intros Hn Hw. destruct sym; [exact Hw| |];
  (apply Forall_forall; intros [[i j] w] H;
   first [apply (proj2 (symmetrize_spec Qmax q_avg n _ raw Hn or_not_none)) in H
         |apply (proj2 (symmetrize_spec Qmax q_avg n _ raw Hn mutual_not_none)) in H];
   unfold undirected_weight in H; cbn [is_mutual snd] in *;
   destruct (i =? j)%Z; [eapply strongest_nonneg; eassumption|];
   destruct (strongest Qmax raw (Z.min i j) (Z.max i j)) eqn:E1;
   destruct (strongest Qmax raw (Z.max i j) (Z.min i j)) eqn:E2; try discriminate;
   injection H as <-;
   repeat match goal with H : strongest Qmax raw _ _ = Some _ |- _ =>
     apply (strongest_nonneg _ _ _ _ Hw) in H end;
   try apply q_avg_nonneg; assumption).
Qed.

Lemma combine_app {A B} (a a' : list A) (b b' : list B) : length a = length b ->
  combine (a ++ a') (b ++ b') = combine a b ++ combine a' b'.
Proof.
  revert b. induction a as [|x a IH]; intros [|y b] H; cbn in *; try discriminate; [reflexivity|].
  rewrite IH by congruence. reflexivity.
Qed.
Lemma combine_map2 {A B C} (f : A -> B) (g : A -> C) l :
  combine (map f l) (map g l) = map (fun x => (f x, g x)) l.
Proof. induction l as [|x l IH]; cbn; [reflexivity|rewrite IH; reflexivity]. Qed.

(* with self-loops, some outgoing edge of every node weighs 1 or was already a loop *)
Lemma looped_degree n s i (c : Q) :
  Forall (fun p => 0 <= snd p) s -> (0 <= i < n)%Z -> c <= 1 ->
  (forall w, In ((i, i), w) s -> c <= w) ->
  c <= sumQ (outgoing (fst (looped n true s)) (snd (looped n true s)) i).
Proof.
  intros Hw Hi Hc Hloop.
  assert (Hnn : Forall (fun x => 0 <= x) (outgoing (fst (looped n true s)) (snd (looped n true s)) i)).
  { apply outgoing_forall. cbn. apply Forall_app. split.
    - apply Forall_forall. intros x Hx. apply in_map_iff in Hx. destruct Hx as [p [<- Hp]].
      rewrite Forall_forall in Hw. apply Hw, Hp.
    - apply Forall_forall. intros x Hx. apply in_map_iff in Hx. destruct Hx as [p [<- Hp]]. discriminate. }
  assert (Hex : exists w, c <= w /\ In w (outgoing (fst (looped n true s)) (snd (looped n true s)) i)).
  { cbn [looped fst snd]. unfold outgoing. rewrite combine_app by (rewrite !map_length; reflexivity).
    rewrite filter_app, map_app.
    destruct (in_dec (fun a b => match Z.eq_dec a b with left H => left H | right H => right H end) i
                (missing_loops n (map fst s))) as [H|H].
    - exists 1. split; [exact Hc|]. apply in_or_app. right. apply in_map_iff. exists ((i, i), 1).
      split; [reflexivity|]. apply filter_In. split; [|cbn; apply Z.eqb_refl].
      rewrite combine_map2. apply in_map_iff. exists i. auto.
    - destruct (in_dec (fun a b : edge => match Z.eq_dec (fst a) (fst b), Z.eq_dec (snd a) (snd b) with
                          | left H1, left H2 => left (injective_projections _ _ H1 H2)
                          | right H1, _ => right (fun E => H1 (f_equal fst E))
                          | _, right H2 => right (fun E => H2 (f_equal snd E)) end) (i, i) (map fst s)) as [Hl|Hl].
      + apply in_map_iff in Hl. destruct Hl as [[e w] [He Hl]]. cbn in He; subst e.
        exists w. split; [apply Hloop, Hl|]. apply in_or_app. left. apply in_map_iff.
        exists ((i, i), w). split; [reflexivity|]. apply filter_In. split; [|cbn; apply Z.eqb_refl].
        rewrite combine_map2. apply in_map_iff. exists ((i, i), w). auto.
      + exfalso. apply H. apply in_missing. auto. }
  destruct Hex as [w [Hcw Hin]]. eapply Qle_trans; [exact Hcw|]. apply sumQ_ge_member; assumption.
Qed.

(* ----------------------------------------------------------------------------------- masks *)
Local Open Scope Z_scope.
Lemma outside_false n idx : outside n idx = false <-> all_below n idx.
Proof.
  unfold outside, all_below. split.
  - intros H i Hi. destruct ((i <? 0) || (n <=? i)) eqn:E; [|lia].
    assert (existsb (fun i => (i <? 0) || (n <=? i)) idx = true) by (apply existsb_exists; eauto). congruence.
  - intros H. destruct (existsb _ idx) eqn:E; [|reflexivity]. apply existsb_exists in E.
    destruct E as [i [Hi E]]. apply H in Hi. lia.
Qed.

Lemma nth_arange_map {A} (f : Z -> A) n i d : 0 <= i < n -> nth (Z.to_nat i) (map f (arange n)) d = f i.
Proof.
  intros H. unfold arange. rewrite map_map.
  rewrite nth_indep with (d' := f (Z.of_nat 0)) by (rewrite map_length, seq_length; lia).
  change (f (Z.of_nat 0)) with ((fun k => f (Z.of_nat k)) 0%nat).
  rewrite (map_nth (fun k => f (Z.of_nat k)) (seq 0 (Z.to_nat n)) 0%nat).
  rewrite seq_nth by lia. f_equal. lia.
Qed.
Lemma marked_map f n i : marked (map f (arange n)) i <-> 0 <= i < n /\ f i = true.
Proof.
  unfold marked. split.
  - intros [H0 H]. destruct (Z.ltb_spec i n); [rewrite nth_arange_map in H by lia; auto|].
    rewrite nth_overflow in H; [discriminate|]. rewrite map_length, arange_length. lia.
  - intros [H1 H2]. rewrite nth_arange_map by lia. split; [lia|exact H2].
Qed.
Lemma to_mask_marked n idx i : all_below n idx -> (marked (to_mask n idx) i <-> In i idx).
Proof.
  intros H. unfold to_mask. rewrite marked_map, memZ_In. split; [tauto|]. intros Hi. split; [apply H, Hi|exact Hi].
Qed.

Lemma masks_spec n tr va te lab m :
  masks_from_indices n tr va te lab = Ok m ->
  0 < n /\ all_below n tr /\ all_below n va /\ all_below n te /\
  (forall l, lab = Some l -> all_below n l) /\
  (forall i, marked (nm_train m) i <-> In i tr) /\
  (forall i, marked (nm_val m) i <-> In i va) /\
  (forall i, marked (nm_test m) i <-> In i te) /\
  (forall i, marked (nm_unlabeled m) i <->
     0 <= i < n /\ match lab with None => ~ In i tr | Some l => In i tr /\ ~ In i l end) /\
  Forall (fun k => length k = Z.to_nat n) [nm_train m; nm_val m; nm_test m; nm_unlabeled m].
Proof.
  unfold masks_from_indices. destruct (n <=? 0) eqn:En; [discriminate|].
  destruct (outside n tr || outside n va || outside n te) eqn:Eo; [discriminate|].
  apply orb_false_iff in Eo. destruct Eo as [Eo Ete]. apply orb_false_iff in Eo. destruct Eo as [Etr Eva].
  apply outside_false in Etr, Eva, Ete. intros H. apply bind_ok in H. destruct H as [un [Hu H]].
  injection H as <-. cbn [nm_train nm_val nm_test nm_unlabeled].
  split; [lia|]. split; [exact Etr|]. split; [exact Eva|]. split; [exact Ete|].
  assert (Hlab : forall l, lab = Some l -> all_below n l).
  { intros l ->. destruct (outside n l) eqn:E; [discriminate|]. apply outside_false, E. }
  split; [exact Hlab|].
  split; [intros i; apply to_mask_marked, Etr|]. split; [intros i; apply to_mask_marked, Eva|].
  split; [intros i; apply to_mask_marked, Ete|].
  assert (Hlen : forall idx, length (to_mask n idx) = Z.to_nat n)
    by (intros; unfold to_mask; rewrite map_length; apply arange_length).
  destruct lab as [l|].
  - specialize (Hlab l eq_refl). destruct (outside n l) eqn:E; [discriminate|]. injection Hu as <-.
    assert (Eq : map (fun p : bool * bool => fst p && negb (snd p)) (combine (to_mask n tr) (to_mask n l))
                 = map (fun i => memZ i tr && negb (memZ i l)) (arange n)).
    { unfold to_mask. rewrite combine_map2, map_map. reflexivity. }
    rewrite Eq. split.
    + intros i. rewrite marked_map, andb_true_iff, negb_true_iff, memZ_In, memZ_false. tauto.
    + repeat constructor; try apply Hlen. rewrite map_length. apply arange_length.
  - injection Hu as <-.
    assert (Eq : map negb (to_mask n tr) = map (fun i => negb (memZ i tr)) (arange n)).
    { unfold to_mask. rewrite map_map. reflexivity. }
    rewrite Eq. split.
    + intros i. rewrite marked_map, negb_true_iff, memZ_false. tauto.
    + repeat constructor; try apply Hlen. rewrite map_length. apply arange_length.
Qed.

Lemma masks_total n tr va te lab :
  0 < n -> all_below n tr -> all_below n va -> all_below n te ->
  (forall l, lab = Some l -> all_below n l) ->
  exists m, masks_from_indices n tr va te lab = Ok m.
Proof.
  intros Hn H1 H2 H3 Hl. unfold masks_from_indices.
  apply outside_false in H1, H2, H3. rewrite H1, H2, H3. replace (n <=? 0) with false by lia. cbn [orb].
  destruct lab as [l|]; [|eexists; reflexivity].
  specialize (Hl l eq_refl). apply outside_false in Hl. rewrite Hl. eexists; reflexivity.
Qed.

Lemma masks_error n tr va te lab e :
  masks_from_indices n tr va te lab = Err e ->
  e = GraphValidationError /\
  (n <= 0 \/ exists i, ~ 0 <= i < n /\
     (In i tr \/ In i va \/ In i te \/ (exists l, lab = Some l /\ In i l))).
Proof.
  intros H. split.
  - unfold masks_from_indices in H. destruct (n <=? 0); [congruence|].
    destruct (_ || _ || _); [congruence|].
    destruct lab as [l|]; cbn in H; [destruct (outside n l); cbn in H; congruence|discriminate].
  - destruct (Z.leb_spec n 0); [left; lia|right].
    assert (Hx : forall idx, all_below n idx \/ exists i, ~ 0 <= i < n /\ In i idx).
    { intros idx. induction idx as [|a r IH]; [left; intros i []|].
      destruct (Z_le_dec 0 a), (Z_lt_dec a n);
        try (right; exists a; split; [lia|left; reflexivity]).
      destruct IH as [IH|[i [Hi Hin]]]; [left; intros i [->|Hi]; [lia|apply IH, Hi]|].
      right. exists i. split; [exact Hi|right; exact Hin]. }
    destruct (Hx tr) as [Htr|[i [? ?]]]; [|exists i; tauto].
    destruct (Hx va) as [Hva|[i [? ?]]]; [|exists i; tauto].
    destruct (Hx te) as [Hte|[i [? ?]]]; [|exists i; tauto].
    destruct lab as [l|].
    + destruct (Hx l) as [Hl|[i [? ?]]].
      * destruct (masks_total n tr va te (Some l)) as [m Hm]; auto; [intros l' E; injection E as <-; exact Hl|congruence].
      * exists i. split; [assumption|]. do 3 right. eauto.
    + destruct (masks_total n tr va te None) as [m Hm]; auto; [discriminate|congruence].
Qed.
