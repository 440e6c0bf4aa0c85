(* Lemmas for the tokenizers. *)
From Coq Require Import String ZifyBool ZifyNat.
From Verif Require Import Prelude TokModel TokSpec.
Local Open Scope Z_scope.
Local Open Scope list_scope.
Local Notation length := List.length.

(* ---- dictionaries ---- *)
Lemma dget_dset d k v k' : dget (dset d k v) k' = if String.eqb k' k then Some v else dget d k'.
Proof.
  induction d as [|[a b] d IH]; cbn [dset dget].
  - reflexivity.
  - destruct (String.eqb_spec k a) as [->|N]; cbn [dget].
    + destruct (String.eqb_spec k' a); reflexivity.
    + destruct (String.eqb_spec k' a) as [->|N'].
      * destruct (String.eqb_spec a k) as [E|_]; [congruence|reflexivity].
      * apply IH.
Qed.
Lemma dget_In d k : dget d k <> None <-> In k (map fst d).
Proof.
  induction d as [|[a b] d IH]; cbn [dget map fst In].
  - split; [congruence|tauto].
  - destruct (String.eqb_spec k a) as [->|N].
    + split; [auto|congruence].
    + rewrite IH. split; [auto|intros [E|H]; [congruence|exact H]].
Qed.
Lemma dget_pair d k v : dget d k = Some v -> In (k, v) d.
Proof.
  induction d as [|[a b] d IH]; cbn [dget In]; [discriminate|].
  destruct (String.eqb_spec k a) as [->|N]; [intros [= ->]; auto|auto].
Qed.
Lemma dget_unique d k v : NoDup (map fst d) -> In (k, v) d -> dget d k = Some v.
Proof.
  induction d as [|[a b] d IH]; cbn [dget map fst In]; [tauto|]. intros ND H.
  inversion ND as [|? ? NI ND']; subst.
  destruct (String.eqb_spec k a) as [->|N].
  - destruct H as [H|H]; [congruence|]. exfalso. apply NI. apply (in_map fst) in H. exact H.
  - destruct H as [H|H]; [congruence|]. apply IH; assumption.
Qed.
Lemma keys_dset d k v :
  map fst (dset d k v) = if in_dec string_dec k (map fst d) then map fst d else map fst d ++ [k].
Proof.
  induction d as [|[a b] d IH]; cbn [dset map fst].
  - reflexivity.
  - destruct (String.eqb_spec k a) as [->|N]; cbn [map fst].
    + destruct (in_dec string_dec a (a :: map fst d)) as [_|H]; [reflexivity|exfalso; apply H; now left].
    + rewrite IH. destruct (in_dec string_dec k (map fst d)) as [H|H];
        destruct (in_dec string_dec k (a :: map fst d)) as [H'|H']; try reflexivity.
      * exfalso. apply H'. now right.
      * destruct H' as [E|H']; [congruence|contradiction].
Qed.
Lemma NoDup_app_one {A} (l : list A) x : NoDup l -> ~ In x l -> NoDup (l ++ [x]).
Proof.
  intros ND NI. apply (Permutation_NoDup (l := x :: l)).
  - change (x :: l) with ([x] ++ l). apply Permutation_app_comm.
  - constructor; assumption.
Qed.
Lemma NoDup_dset d k v : NoDup (map fst d) -> NoDup (map fst (dset d k v)).
Proof.
  intros ND. rewrite keys_dset. destruct (in_dec string_dec k (map fst d)) as [H|H]; [exact ND|].
  apply NoDup_app_one; assumption.
Qed.
Lemma dset_fresh d k v : ~ In k (map fst d) -> dset d k v = d ++ [(k, v)].
Proof.
  induction d as [|[a b] d IH]; cbn [dset map fst app]; [reflexivity|]. intros NI.
  destruct (String.eqb_spec k a) as [->|N]; [exfalso; apply NI; now left|].
  rewrite IH; [reflexivity|]. intro H. apply NI. now right.
Qed.
Lemma dget_app_fresh d e k : ~ In k (map fst d) -> dget (d ++ e) k = dget e k.
Proof.
  induction d as [|[a b] d IH]; cbn [dget map fst app]; [reflexivity|]. intros NI.
  destruct (String.eqb_spec k a) as [->|N]; [exfalso; apply NI; now left|].
  apply IH. intro H. apply NI. now right.
Qed.
Lemma dget_app_old d e k v : dget d k = Some v -> dget (d ++ e) k = Some v.
Proof.
  induction d as [|[a b] d IH]; cbn [dget app]; [discriminate|].
  destruct (String.eqb k a); [auto|exact IH].
Qed.

(* ---- the counter ---- *)
Lemma counter_snoc ws w : counter (ws ++ [w]) = bump (counter ws) w.
Proof. unfold counter. rewrite fold_left_app. reflexivity. Qed.
Lemma occurrences_snoc ws w x :
  occurrences (ws ++ [w]) x = occurrences ws x + (if String.eqb x w then 1 else 0).
Proof.
  unfold occurrences. rewrite count_occ_app. cbn [count_occ].
  destruct (string_dec w x) as [->|N].
  - rewrite String.eqb_refl. lia.
  - destruct (String.eqb_spec x w) as [E|_]; [congruence|]. lia.
Qed.
Lemma occurrences_In ws x : In x ws <-> 1 <= occurrences ws x.
Proof.
  unfold occurrences. rewrite (count_occ_In string_dec). lia.
Qed.
Lemma counter_get ws x :
  dget (counter ws) x = if occurrences ws x =? 0 then None else Some (occurrences ws x).
Proof.
  induction ws as [|w ws IH] using rev_ind; [reflexivity|].
  rewrite counter_snoc. unfold bump. rewrite dget_dset, occurrences_snoc.
  assert (P : 0 <= occurrences ws x) by (unfold occurrences; lia).
  destruct (String.eqb_spec x w) as [->|N].
  - rewrite IH. destruct (Z.eqb_spec (occurrences ws w) 0) as [E|E];
      destruct (Z.eqb_spec (occurrences ws w + 1) 0); try lia; f_equal; lia.
  - rewrite IH, Z.add_0_r. reflexivity.
Qed.
Lemma counter_keys ws x : In x (map fst (counter ws)) <-> In x ws.
Proof.
  rewrite <- dget_In, counter_get, occurrences_In.
  assert (P : 0 <= occurrences ws x) by (unfold occurrences; lia).
  destruct (Z.eqb_spec (occurrences ws x) 0) as [E|E]; split; intro H; try lia; try congruence.
Qed.
Lemma counter_NoDup ws : NoDup (map fst (counter ws)).
Proof.
  induction ws as [|w ws IH] using rev_ind; [constructor|].
  rewrite counter_snoc. apply NoDup_dset, IH.
Qed.
Lemma counter_entry ws x c : In (x, c) (counter ws) -> c = occurrences ws x /\ In x ws.
Proof.
  intros H. pose proof (dget_unique _ _ _ (counter_NoDup ws) H) as G.
  rewrite counter_get in G.
  destruct (Z.eqb_spec (occurrences ws x) 0) as [E|E]; [discriminate|].
  injection G as <-. split; [reflexivity|]. apply (in_map fst) in H. exact (proj1 (counter_keys ws x) H).
Qed.

(* first occurrences, over any type *)
Definition first_of {A} (l : list A) (a b : A) : Prop :=
  exists before after, l = before ++ after /\ In a before /\ ~ In b before.
Lemma first_of_app {A} (l m : list A) a b : first_of l a b -> first_of (l ++ m) a b.
Proof.
  intros (p & q & -> & Ha & Hb). exists p, (q ++ m). rewrite app_assoc. auto.
Qed.
Lemma prefix_cases {A} (p q l : list A) x :
  p ++ q = l ++ [x] -> (p = l ++ [x]) \/ exists q', l = p ++ q'.
Proof.
  intros E. destruct q as [|z q] using rev_ind.
  - rewrite app_nil_r in E. now left.
  - rewrite app_assoc in E. apply app_inj_tail in E. right. exists q. symmetry. apply E.
Qed.
Lemma first_of_snoc {A} (l : list A) x a b :
  first_of (l ++ [x]) a b -> first_of l a b \/ ((a = x \/ In a l) /\ ~ In b l /\ b <> x).
Proof.
  intros (p & q & E & Ha & Hb). symmetry in E. apply prefix_cases in E. destruct E as [->|(q' & ->)].
  - right. rewrite in_app_iff in Ha, Hb. cbn in Ha, Hb. intuition.
  - left. exists p, q'. auto.
Qed.
Lemma counter_order ws a b :
  In a ws -> In b ws -> (first_of (map fst (counter ws)) a b <-> first_of ws a b).
Proof.
  revert a b. induction ws as [|w ws IH] using rev_ind; [intros a b []|].
  intros a b Ha Hb. rewrite in_app_iff in Ha, Hb. cbn in Ha, Hb.
  rewrite counter_snoc. unfold bump. rewrite keys_dset.
  destruct (in_dec string_dec w (map fst (counter ws))) as [Hw|Hw].
  - rewrite counter_keys in Hw.
    assert (Ia : In a ws) by (destruct Ha as [?|[->|[]]]; assumption).
    assert (Ib : In b ws) by (destruct Hb as [?|[->|[]]]; assumption).
    rewrite (IH a b Ia Ib). split; [apply first_of_app|].
    intros H. apply first_of_snoc in H. destruct H as [H|(_ & H & _)]; [exact H|contradiction].
  - rewrite counter_keys in Hw.
    destruct (in_dec string_dec b ws) as [Ib|Nb].
    + destruct (in_dec string_dec a ws) as [Ia|Na].
      * split; intros H; apply first_of_app; apply first_of_snoc in H.
        -- destruct H as [H|(_ & H & _)]; [now apply IH|]. rewrite counter_keys in H. contradiction.
        -- destruct H as [H|(_ & H & _)]; [now apply IH|contradiction].
      * split; intros H; exfalso; apply first_of_snoc in H; destruct H as [H|(_ & H & _)].
        -- destruct H as (p & q & E & Hp & _). apply Na. apply counter_keys. rewrite E. apply in_app_iff. now left.
        -- rewrite counter_keys in H. contradiction.
        -- destruct H as (p & q & E & Hp & _). apply Na. rewrite E. apply in_app_iff. now left.
        -- contradiction.
    + assert (b = w) as -> by (destruct Hb as [?|[->|[]]]; [contradiction|reflexivity]).
      destruct (in_dec string_dec a ws) as [Ia|Na].
      * split; intros _.
        -- exists ws, [w]. auto.
        -- exists (map fst (counter ws)), [w]. rewrite !counter_keys. auto.
      * assert (a = w) as -> by (destruct Ha as [?|[->|[]]]; [contradiction|reflexivity]).
        split; intros (p & q & _ & H1 & H2); contradiction.
Qed.

(* ---- the stable descending sort ---- *)
Lemma insert_desc_perm x l : Permutation (insert_desc x l) (x :: l).
Proof.
  induction l as [|y l IH]; cbn [insert_desc]; [reflexivity|].
  destruct (snd y <=? snd x); [reflexivity|].
  rewrite IH. apply perm_swap.
Qed.
Lemma sort_desc_perm l : Permutation (sort_desc l) l.
Proof.
  induction l as [|x l IH]; cbn [sort_desc fold_right]; [constructor|].
  fold (sort_desc l). rewrite insert_desc_perm. now constructor.
Qed.
Definition goes_before (d : list (string * Z)) (x y : string * Z) : Prop :=
  snd y < snd x \/ (snd x = snd y /\ first_of d x y).
Lemma first_of_cons {A} (x : A) l a b :
  ~ In x l -> In a l -> In b l -> (first_of (x :: l) a b <-> first_of l a b).
Proof.
  intros NI Ia Ib. split; intros (p & q & E & Ha & Hb).
  - destruct p as [|y p]; [destruct Ha|]. cbn in E. injection E as -> E.
    exists p, q. split; [exact E|]. split.
    + destruct Ha as [->|Ha]; [contradiction|exact Ha].
    + intro H. apply Hb. now right.
  - exists (x :: p), q. split; [cbn; now rewrite E|]. split; [now right|].
    intros [->|H]; [contradiction|contradiction].
Qed.
Lemma insert_desc_sorted d x l :
  ~ In x d -> incl l d ->
  StronglySorted (goes_before d) l -> StronglySorted (goes_before (x :: d)) (insert_desc x l).
Proof.
  intros NI I. induction l as [|y l IH]; intros S.
  - cbn. repeat constructor.
  - cbn [insert_desc]. inversion S as [|? ? S' F]; subst.
    assert (Iy : In y d) by (apply I; now left).
    assert (Il : incl l d) by (intros z Hz; apply I; now right).
    assert (Up : forall a b, In a d -> In b d -> goes_before d a b -> goes_before (x :: d) a b).
    { intros a b Ha Hb [H|(H & G)]; [now left|right]. split; [exact H|].
      apply first_of_cons; auto. }
    assert (Xb : forall b, In b d -> snd b <= snd x -> goes_before (x :: d) x b).
    { intros b Hb L. destruct (Z.eq_dec (snd x) (snd b)) as [E|E]; [right|left; lia].
      split; [exact E|]. exists [x], d. repeat split; [now left|].
      intros [->|[]]. contradiction. }
    assert (SU : forall m, incl m d -> StronglySorted (goes_before d) m -> StronglySorted (goes_before (x :: d)) m).
    { induction m as [|z m IHm]; intros Im Sm; constructor; inversion Sm as [|? ? Sm' Fm]; subst.
      - apply IHm; [intros u Hu; apply Im; now right|exact Sm'].
      - rewrite Forall_forall in Fm |- *. intros u Hu. apply Up; [apply Im; now left|apply Im; now right|auto]. }
    destruct (Z.leb_spec (snd y) (snd x)) as [L|L].
    + constructor; [apply SU; [exact I|exact S]|].
      rewrite Forall_forall in F |- *. intros z [<-|Hz]; [apply Xb; auto|].
      apply Xb; [apply Il, Hz|]. destruct (F z Hz) as [H|(H & _)]; lia.
    + constructor; [apply IH; assumption|].
      rewrite Forall_forall in F |- *. intros z Hz.
      apply (Permutation_in _ (insert_desc_perm x l)) in Hz. destruct Hz as [<-|Hz].
      * left. exact L.
      * apply Up; auto.
Qed.
Lemma sort_desc_sorted d : NoDup d -> StronglySorted (goes_before d) (sort_desc d).
Proof.
  induction d as [|x d IH]; intros ND; [constructor|]. inversion ND; subst.
  cbn [sort_desc fold_right]. fold (sort_desc d). apply insert_desc_sorted; [assumption| |auto].
  intros z Hz. apply (Permutation_in _ (sort_desc_perm d)) in Hz. exact Hz.
Qed.
Lemma NoDup_pairs (d : list (string * Z)) : NoDup (map fst d) -> NoDup d.
Proof. apply NoDup_map_inv. Qed.
Lemma first_of_asym {A} (l : list A) a b : first_of l a b -> ~ first_of l b a.
Proof.
  intros (p & q & E & Ha & Hb) (p' & q' & E' & Hb' & Ha'). subst l.
  assert (C : (exists r, p = p' ++ r) \/ (exists r, p' = p ++ r)).
  { clear - E'. revert p' E'. induction p as [|x p IH]; intros p' E'.
    - right. exists p'. reflexivity.
    - destruct p' as [|y p']; [left; exists (x :: p); reflexivity|].
      cbn in E'. injection E' as <- E'. destruct (IH _ E') as [(r & ->)|(r & ->)]; [left|right]; exists r; reflexivity. }
  destruct C as [(r & ->)|(r & ->)].
  - apply Hb, in_app_iff. now left.
  - apply Ha', in_app_iff. now left.
Qed.
Lemma first_of_fst (d : list (string * Z)) x y :
  NoDup (map fst d) -> In x d -> In y d -> (first_of d x y <-> first_of (map fst d) (fst x) (fst y)).
Proof.
  intros ND Ix Iy. split; intros (p & q & E & Hx & Hy).
  - exists (map fst p), (map fst q). rewrite E, map_app. split; [reflexivity|].
    split; [now apply in_map|]. intros H. apply in_map_iff in H. destruct H as (z & Ez & Hz).
    apply Hy. assert (z = y) as <-; [|exact Hz].
    destruct z as [k v], y as [k' v']. cbn in Ez. subst k'. f_equal.
    pose proof (dget_unique _ _ _ ND Iy) as G1.
    assert (Iz : In (k, v) d) by (rewrite E; apply in_app_iff; now left).
    pose proof (dget_unique _ _ _ ND Iz) as G2. congruence.
  - exists (firstn (length p) d), (skipn (length p) d). rewrite firstn_skipn. split; [reflexivity|].
    assert (Ep : map fst (firstn (length p) d) = p).
    { rewrite <- firstn_map, E, firstn_app, Nat.sub_diag, firstn_all, firstn_O. apply app_nil_r. }
    split.
    + rewrite <- Ep in Hx. apply in_map_iff in Hx. destruct Hx as (z & Ez & Hz).
      assert (z = x) as <-; [|exact Hz].
      destruct z as [k v], x as [k' v']. cbn in Ez. subst k'. f_equal.
      pose proof (dget_unique _ _ _ ND Ix) as G1.
      assert (Iz : In (k, v) d) by (rewrite <- (firstn_skipn (length p) d); apply in_app_iff; now left).
      pose proof (dget_unique _ _ _ ND Iz) as G2. congruence.
    + intros H. apply Hy. rewrite <- Ep. now apply in_map.
Qed.
Lemma sorted_split {A} (R : A -> A -> Prop) p x q :
  StronglySorted R (p ++ x :: q) -> (forall a, In a p -> R a x) /\ (forall a, In a q -> R x a).
Proof.
  induction p as [|y p IH]; cbn [app]; intros S; inversion S as [|? ? S' F]; subst; rewrite Forall_forall in F.
  - split; [intros a []|exact F].
  - destruct (IH S') as [H1 H2]. split; [|exact H2]. intros a [<-|Ha]; [|auto].
    apply F, in_app_iff. right. now left.
Qed.

(* ---- the ranking ---- *)
(* in the sorted counter, the entries before a word are exactly those that precede it *)
Lemma sorted_rank ws p w c q :
  sort_desc (counter ws) = p ++ (w, c) :: q ->
  c = occurrences ws w /\ In w ws /\ ranked ws w (lenZ p) /\ (forall a, In a p -> c <= snd a) /\ (forall a, In a q -> snd a <= c).
Proof.
  intros E.
  pose proof (counter_NoDup ws) as ND. pose proof (NoDup_pairs _ ND) as NDp.
  pose proof (sort_desc_sorted _ NDp) as S. rewrite E in S. apply sorted_split in S. destruct S as [S1 S2].
  assert (Im : forall a, In a (counter ws) <-> In a (p ++ (w, c) :: q)).
  { intros a. rewrite <- E. split; apply Permutation_in; [symmetry|]; apply sort_desc_perm. }
  assert (Iw : In (w, c) (counter ws)) by (apply Im, in_app_iff; right; now left).
  destruct (counter_entry _ _ _ Iw) as [-> Ww].
  split; [reflexivity|]. split; [exact Ww|]. split; [|split].
  - exists (map fst p).
    assert (NDs : NoDup (map fst (p ++ (w, occurrences ws w) :: q))).
    { apply (Permutation_NoDup (l := map fst (counter ws))); [|exact ND].
      apply Permutation_map. rewrite <- E. symmetry. apply sort_desc_perm. }
    rewrite map_app in NDs. split; [|split].
    + clear - NDs. revert NDs. generalize (map fst ((w, occurrences ws w) :: q)). intros m.
      induction (map fst p) as [|y l IH]; cbn; intros H; [constructor|]. inversion H; subst.
      constructor; [rewrite in_app_iff in H2; tauto|auto].
    + unfold lenZ. now rewrite map_length.
    + intros a. split.
      * intros H. apply in_map_iff in H. destruct H as ([a' ca] & <- & Ha). cbn [fst].
        assert (Ia : In (a', ca) (counter ws)) by (apply Im, in_app_iff; now left).
        destruct (counter_entry _ _ _ Ia) as [-> Wa].
        split; [exact Wa|]. specialize (S1 _ Ha). destruct S1 as [S1|[S1 F]]; cbn [snd] in S1; [left; exact S1|right].
        split; [exact S1|]. apply (first_of_fst _ _ _ ND Ia Iw) in F. cbn [fst] in F.
        exact (proj1 (counter_order ws a' w Wa Ww) F).
      * intros (Wa & P).
        assert (Ia : In (a, occurrences ws a) (counter ws)).
        { apply dget_pair. rewrite counter_get. apply occurrences_In in Wa.
          destruct (Z.eqb_spec (occurrences ws a) 0); [lia|reflexivity]. }
        assert (R : goes_before (counter ws) (a, occurrences ws a) (w, occurrences ws w)).
        { destruct P as [P|[P F]]; [left; exact P|right]. split; [exact P|].
          apply (first_of_fst _ _ _ ND Ia Iw). cbn [fst]. apply counter_order; assumption. }
        pose proof (proj1 (Im _) Ia) as H. apply in_app_iff in H. destruct H as [H|[H|H]].
        -- apply (in_map fst) in H. exact H.
        -- exfalso. injection H as <- _. destruct R as [R|[_ R]]; [cbn in R; lia|].
           destruct R as (x & y & _ & H1 & H2). contradiction.
        -- exfalso. specialize (S2 _ H). destruct R as [R|[R F]]; destruct S2 as [S2|[S2 F']]; cbn [snd] in *; try lia.
           apply (first_of_asym _ _ _ F F').
  - intros a Ha. specialize (S1 _ Ha). destruct S1 as [S1|[S1 _]]; cbn [snd] in *; lia.
  - intros a Ha. specialize (S2 _ Ha). destruct S2 as [S2|[S2 _]]; cbn [snd] in *; lia.
Qed.
Lemma ranked_unique ws w n m : ranked ws w n -> ranked ws w m -> n = m.
Proof.
  intros (l & ND & L & H) (l' & ND' & L' & H'). subst n m. unfold lenZ. f_equal.
  apply Permutation_length, NoDup_Permutation; [assumption|assumption|].
  intros x. rewrite H, H'. reflexivity.
Qed.

(* ---- the vocabulary ---- *)
Fixpoint numbered (n : Z) (l : list (string * Z)) : list (string * Z) :=
  match l with [] => [] | (w, _) :: r => (w, n) :: numbered (n + 1) r end.
Lemma numbered_length n l : length (numbered n l) = length l.
Proof. revert n. induction l as [|[w c] l IH]; intros n; cbn; [reflexivity|now rewrite IH]. Qed.
Lemma numbered_keys n l : map fst (numbered n l) = map fst l.
Proof. revert n. induction l as [|[w c] l IH]; intros n; cbn; [reflexivity|now rewrite IH]. Qed.
Lemma numbered_get n p w c q :
  ~ In w (map fst p) -> dget (numbered n (p ++ (w, c) :: q)) w = Some (n + lenZ p).
Proof.
  revert n. induction p as [|[x d] p IH]; intros n NI; cbn [app numbered dget].
  - rewrite String.eqb_refl. f_equal. unfold lenZ. cbn. lia.
  - cbn in NI. destruct (String.eqb_spec w x) as [->|N]; [exfalso; apply NI; now left|].
    rewrite IH; [|tauto]. f_equal. unfold lenZ. cbn [length]. lia.
Qed.
Lemma add_candidates c voc l :
  NoDup (map fst l) -> (forall w, In w (map fst l) -> ~ In w (map fst voc)) ->
  fold_left (add_candidate c) l voc = voc ++ numbered (lenZ voc) (filter (fun tc => v_min c <=? snd tc) l).
Proof.
  revert voc. induction l as [|[w k] l IH]; intros voc ND F; cbn [fold_left filter].
  - cbn. now rewrite app_nil_r.
  - unfold add_candidate at 2. cbn [snd fst].
    cbn [map fst] in ND, F. inversion ND as [|? ? NI ND']; subst.
    destruct (v_min c <=? k) eqn:B.
    + rewrite dset_fresh by (apply F; now left).
      rewrite IH; [| exact ND' |].
      * cbn [numbered]. rewrite <- app_assoc. cbn [app]. repeat f_equal.
        unfold lenZ. rewrite app_length. cbn [length]. lia.
      * intros x Hx. rewrite map_app, in_app_iff. cbn [map fst In].
        intros [H|[<-|[]]]; [apply (F x); [now right|exact H]|contradiction].
    + apply IH; [exact ND'|]. intros x Hx. apply F. now right.
Qed.
Lemma filter_prefix (m : Z) l :
  (forall p x q, l = p ++ x :: q -> forall a, In a q -> snd a <= snd x) ->
  exists rest, l = filter (fun tc : string * Z => m <=? snd tc) l ++ rest /\ (forall a, In a rest -> snd a < m).
Proof.
  induction l as [|x l IH]; intros S; cbn [filter].
  - exists []. split; [reflexivity|intros a []].
  - assert (S' : forall p x0 q, l = p ++ x0 :: q -> forall a, In a q -> snd a <= snd x0).
    { intros p y q E. apply (S (x :: p) y q). cbn. now rewrite E. }
    destruct (Z.leb_spec m (snd x)) as [L|L].
    + destruct (IH S') as (rest & E & R). exists rest. cbn [app]. rewrite <- E. auto.
    + pose proof (S [] x l eq_refl) as B.
      replace (filter (fun tc => m <=? snd tc) l) with (@nil (string * Z)).
      * exists (x :: l). split; [reflexivity|]. intros a [<-|Ha]; [lia|]. specialize (B a Ha). lia.
      * symmetry. clear - B L. induction l as [|y l IH]; [reflexivity|]. cbn [filter].
        assert (snd y <= snd x) by (apply B; now left).
        destruct (Z.leb_spec m (snd y)); [lia|]. apply IH. intros a Ha. apply B. now right.
Qed.
Lemma incl_firstn {A} n (l : list A) : incl (firstn n l) l.
Proof. intros x H. rewrite <- (firstn_skipn n l). apply in_app_iff. now left. Qed.
Lemma NoDup_firstn {A} n (l : list A) : NoDup l -> NoDup (firstn n l).
Proof.
  rewrite <- (firstn_skipn n l) at 1. generalize (skipn n l). intros m.
  induction (firstn n l) as [|x k IH]; cbn; intros H; [constructor|]. inversion H; subst.
  constructor; [rewrite in_app_iff in H2; tauto|auto].
Qed.

(* the vocabulary built from the words ws, when the two special words are apart and not in ws *)
Definition built (c : vconf) (ws : list string) : list (string * Z) :=
  fold_left (add_candidate c) (most_common (counter ws) (v_size c - 2)) (dset (dset [] (v_pad c) 0) (v_unk c) 1).

Section Built.
Variables (c : vconf) (ws : list string).
Hypothesis apart : v_pad c <> v_unk c.
Hypothesis special : ~ In (v_pad c) ws /\ ~ In (v_unk c) ws.
Let cand := most_common (counter ws) (v_size c - 2).
Let kept := filter (fun tc : string * Z => v_min c <=? snd tc) cand.

Lemma cand_keys w : In w (map fst cand) -> In w ws.
Proof using.
  unfold cand, most_common. rewrite <- firstn_map. intros H. apply incl_firstn in H.
  apply counter_keys. apply (Permutation_in _ (Permutation_map fst (sort_desc_perm (counter ws)))). exact H.
Qed.
Lemma sorted_keys_NoDup : NoDup (map fst (sort_desc (counter ws))).
Proof using.
  apply (Permutation_NoDup (l := map fst (counter ws))); [|apply counter_NoDup].
  apply Permutation_map. symmetry. apply sort_desc_perm.
Qed.
Lemma cand_NoDup : NoDup (map fst cand).
Proof using. unfold cand, most_common. rewrite <- firstn_map. apply NoDup_firstn, sorted_keys_NoDup. Qed.
Lemma start_eq : dset (dset [] (v_pad c) 0) (v_unk c) 1 = [(v_pad c, 0); (v_unk c, 1)].
Proof using apart.
  cbn. destruct (String.eqb_spec (v_unk c) (v_pad c)); [congruence|reflexivity].
Qed.
Lemma built_eq : built c ws = [(v_pad c, 0); (v_unk c, 1)] ++ numbered 2 kept.
Proof using apart special.
  unfold built. rewrite start_eq. fold cand.
  rewrite (add_candidates c [(v_pad c, 0); (v_unk c, 1)] cand cand_NoDup); [reflexivity|].
  intros w Hw. apply cand_keys in Hw. destruct special as [S1 S2]. cbn.
  intros [E|[E|[]]]; subst w; contradiction.
Qed.
Lemma kept_prefix :
  exists n, kept = firstn n (sort_desc (counter ws)) /\ (n <= Z.to_nat (v_size c - 2))%nat /\
    (forall p x q, sort_desc (counter ws) = p ++ x :: q -> (length p < n)%nat -> v_min c <= snd x) /\
    (forall p x q, sort_desc (counter ws) = p ++ x :: q -> (n <= length p)%nat ->
       (length p < Z.to_nat (v_size c - 2))%nat -> snd x < v_min c) /\
    (n <= length (sort_desc (counter ws)))%nat.
Proof using.
  set (s := sort_desc (counter ws)). set (k := Z.to_nat (v_size c - 2)).
  assert (Ss : forall p x q, s = p ++ x :: q -> forall a, In a q -> snd a <= snd x).
  { intros p [w o] q E. apply sorted_rank in E. apply E. }
  assert (Sc : forall p x q, cand = p ++ x :: q -> forall a, In a q -> snd a <= snd x).
  { intros p x q E a Ha. apply (Ss p x (q ++ skipn k s)).
    - rewrite <- (firstn_skipn k s) at 1. change (firstn k s) with cand. rewrite E, <- app_assoc. reflexivity.
    - apply in_app_iff. now left. }
  destruct (filter_prefix (v_min c) cand Sc) as (rest & E & R). fold kept in E.
  assert (Lc : length cand = Nat.min k (length s)) by (unfold cand, most_common; apply firstn_length).
  assert (Lk : (length kept <= length cand)%nat) by (rewrite E at 1; rewrite app_length; lia).
  assert (Es : s = kept ++ rest ++ skipn k s).
  { rewrite <- (firstn_skipn k s) at 1. change (firstn k s) with cand. rewrite E, <- app_assoc. reflexivity. }
  exists (length kept). split; [|split; [lia|split; [|split]]].
  - rewrite Es at 1. rewrite firstn_app, Nat.sub_diag, firstn_all, firstn_O. now rewrite app_nil_r.
  - intros p x q Ep Lp.
    assert (Hx : nth_error kept (length p) = Some x).
    { rewrite <- (nth_error_app1 kept (rest ++ skipn k s)) by exact Lp. rewrite <- Es, Ep.
      rewrite nth_error_app2 by lia. now rewrite Nat.sub_diag. }
    apply nth_error_In in Hx. unfold kept in Hx. apply filter_In in Hx. lia.
  - intros p x q Ep Lp Lp'.
    assert (Hx : nth_error rest (length p - length kept) = Some x).
    { assert (Hs : nth_error s (length p) = Some x) by (rewrite Ep, nth_error_app2 by lia; now rewrite Nat.sub_diag).
      rewrite Es, nth_error_app2 in Hs by lia.
      destruct (Nat.lt_ge_cases (length p - length kept) (length rest)) as [H|H].
      - rewrite nth_error_app1 in Hs by exact H. exact Hs.
      - exfalso. rewrite E, app_length in Lc.
        assert (Ls : (length p < length s)%nat) by (rewrite Ep, app_length; cbn; lia). lia. }
    apply R. eapply nth_error_In. exact Hx.
  - lia.
Qed.

Lemma built_known w n :
  In w ws -> ranked ws w n ->
  dget (built c ws) w =
    if (n <? v_size c - 2) && (v_min c <=? occurrences ws w) then Some (2 + n) else None.
Proof using apart special.
  intros Iw R. rewrite built_eq.
  assert (Nw : w <> v_pad c /\ w <> v_unk c).
  { destruct special as [S1 S2]. split; intros ->; contradiction. }
  cbn [app dget]. destruct (String.eqb_spec w (v_pad c)) as [E|_]; [tauto|].
  destruct (String.eqb_spec w (v_unk c)) as [E|_]; [tauto|].
  destruct kept_prefix as (k & Ek & Lk & Hlow & Hhigh & Hlen).
  assert (In (w, occurrences ws w) (sort_desc (counter ws))) as Is.
  { apply (Permutation_in _ (Permutation_sym (sort_desc_perm (counter ws)))).
    apply dget_pair. rewrite counter_get. apply occurrences_In in Iw.
    destruct (Z.eqb_spec (occurrences ws w) 0); [lia|reflexivity]. }
  apply in_split in Is. destruct Is as (p & q & Es).
  pose proof (sorted_rank _ _ _ _ _ Es) as (_ & _ & R' & _).
  pose proof (ranked_unique _ _ _ _ R R') as ->.
  assert (NIp : ~ In w (map fst p)).
  { pose proof sorted_keys_NoDup as ND. rewrite Es, map_app in ND. apply NoDup_remove_2 in ND.
    intro H. apply ND, in_app_iff. now left. }
  destruct (Nat.lt_ge_cases (length p) k) as [H|H].
  - assert (v_min c <= occurrences ws w) as M by (apply (Hlow p (w, occurrences ws w) q Es H)).
    unfold lenZ. replace (Z.of_nat (length p) <? v_size c - 2) with true by lia.
    replace (v_min c <=? occurrences ws w) with true by lia. cbn [andb].
    assert (kept = p ++ (w, occurrences ws w) :: firstn (k - S (length p)) q) as ->.
    { rewrite Ek, Es. rewrite firstn_app. rewrite firstn_all2 by lia. f_equal.
      destruct (k - length p)%nat eqn:D; [lia|]. cbn [firstn]. f_equal. f_equal. lia. }
    rewrite numbered_get by exact NIp. reflexivity.
  - assert ((lenZ p <? v_size c - 2) && (v_min c <=? occurrences ws w) = false) as ->.
    { unfold lenZ. destruct (Z.ltb_spec (Z.of_nat (length p)) (v_size c - 2)) as [L|L]; [|reflexivity].
      cbn [andb]. assert (snd (w, occurrences ws w) < v_min c) by (apply (Hhigh p _ q Es H); lia).
      cbn [snd] in *. lia. }
    destruct (dget (numbered 2 kept) w) eqn:G; [|reflexivity].
    exfalso. assert (dget (numbered 2 kept) w <> None) as G' by congruence.
    apply dget_In in G'. rewrite numbered_keys, Ek, Es in G'.
    rewrite firstn_app in G'. replace (k - length p)%nat with O in G' by lia.
    rewrite firstn_O, app_nil_r in G'. apply NIp.
    rewrite <- (firstn_skipn k p), map_app, in_app_iff. now left.
Qed.
Lemma built_unknown w : ~ In w ws -> w <> v_pad c -> w <> v_unk c -> dget (built c ws) w = None.
Proof using apart special.
  intros Nw N1 N2. rewrite built_eq. cbn [app dget].
  destruct (String.eqb_spec w (v_pad c)); [tauto|]. destruct (String.eqb_spec w (v_unk c)); [tauto|].
  destruct (dget (numbered 2 kept) w) eqn:G; [|reflexivity]. exfalso.
  assert (dget (numbered 2 kept) w <> None) as G' by congruence.
  apply dget_In in G'. rewrite numbered_keys in G'. apply Nw, cand_keys.
  apply in_map_iff in G'. destruct G' as (x & <- & Hx). apply in_map. unfold kept in Hx.
  apply filter_In in Hx. apply Hx.
Qed.
Lemma built_unk : dget (built c ws) (v_unk c) = Some 1.
Proof using apart special.
  rewrite built_eq. cbn [app dget]. destruct (String.eqb_spec (v_unk c) (v_pad c)); [congruence|].
  now rewrite String.eqb_refl.
Qed.
Lemma built_size : lenZ (built c ws) <= Z.max 2 (v_size c).
Proof using apart special.
  rewrite built_eq. unfold lenZ. rewrite app_length, numbered_length. cbn [length].
  destruct kept_prefix as (k & Ek & Lk & _). rewrite Ek, firstn_length. lia.
Qed.
Lemma numbered_range n l w i : dget (numbered n l) w = Some i -> n <= i < n + lenZ l.
Proof using.
  revert n. induction l as [|[x d] l IH]; intros n; cbn [numbered dget]; [discriminate|].
  unfold lenZ in *. cbn [length]. destruct (String.eqb w x).
  - intros [= <-]. lia.
  - intros H. specialize (IH _ H). lia.
Qed.
Lemma numbered_injective n l w w' i : dget (numbered n l) w = Some i -> dget (numbered n l) w' = Some i -> w = w'.
Proof using.
  revert n. induction l as [|[x d] l IH]; intros n; cbn [numbered dget]; [discriminate|].
  destruct (String.eqb_spec w x) as [->|N]; destruct (String.eqb_spec w' x) as [->|N'].
  - reflexivity.
  - intros [= <-] H. apply numbered_range in H. lia.
  - intros H [= <-]. apply numbered_range in H. lia.
  - apply IH.
Qed.
Lemma built_injective w w' i : dget (built c ws) w = Some i -> dget (built c ws) w' = Some i -> w = w'.
Proof using apart special.
  rewrite built_eq. cbn [app dget].
  destruct (String.eqb_spec w (v_pad c)) as [E|N]; destruct (String.eqb_spec w' (v_pad c)) as [E'|N'];
    try (destruct (String.eqb_spec w (v_unk c)) as [F|M]); try (destruct (String.eqb_spec w' (v_unk c)) as [F'|M']);
    try congruence; try (intros G [= <-]; apply numbered_range in G; lia);
    try (intros [= <-] G; apply numbered_range in G; lia);
    try (intros G G'; eapply numbered_injective; eassumption).
Qed.
Lemma built_range w i : dget (built c ws) w = Some i -> 0 <= i < lenZ (built c ws).
Proof using apart special.
  rewrite built_eq. unfold lenZ. rewrite app_length, numbered_length. cbn [app dget length].
  destruct (String.eqb w (v_pad c)); [intros [= <-]; lia|].
  destruct (String.eqb w (v_unk c)); [intros [= <-]; lia|].
  intros H. apply numbered_range in H. unfold lenZ in H. lia.
Qed.
Lemma built_two w i : dget (built c ws) w = Some i -> In w ws -> 2 <= i.
Proof using apart special.
  rewrite built_eq. cbn [app dget]. destruct special as [S1 S2]. intros H Iw.
  destruct (String.eqb_spec w (v_pad c)) as [->|_]; [contradiction|].
  destruct (String.eqb_spec w (v_unk c)) as [->|_]; [contradiction|].
  apply numbered_range in H. lia.
Qed.
End Built.

(* every word of ws has a rank *)
Lemma has_rank ws w : In w ws -> exists n, ranked ws w n.
Proof.
  intros Iw. assert (In (w, occurrences ws w) (sort_desc (counter ws))) as Is.
  { apply (Permutation_in _ (Permutation_sym (sort_desc_perm (counter ws)))).
    apply dget_pair. rewrite counter_get. apply occurrences_In in Iw.
    destruct (Z.eqb_spec (occurrences ws w) 0); [lia|reflexivity]. }
  apply in_split in Is. destruct Is as (p & q & Es). exists (lenZ p). eapply sorted_rank, Es.
Qed.

(* ---- row selection ---- *)
Lemma take_one_ok {A} (rows : list A) i x : take_one rows i = Ok x <-> designates rows i x.
Proof.
  unfold take_one, designates.
  destruct ((i <? - lenZ rows) || (lenZ rows <=? i)) eqn:B.
  - split; [discriminate|]. intros [H _]. lia.
  - assert (R : - lenZ rows <= i < lenZ rows) by lia.
    replace (i mod lenZ rows) with (if i <? 0 then i + lenZ rows else i).
    + destruct (nth_error rows _) as [y|] eqn:N; split.
      * intros [= ->]. auto.
      * intros [_ H]. congruence.
      * discriminate.
      * intros [_ H]. discriminate.
    + destruct (Z.ltb_spec i 0).
      * apply Z.mod_unique with (-1); lia.
      * symmetry. apply Z.mod_small. lia.
Qed.
Lemma take_one_total {A} (rows : list A) i : - lenZ rows <= i < lenZ rows -> exists x, take_one rows i = Ok x.
Proof.
  intros H. unfold take_one.
  replace ((i <? - lenZ rows) || (lenZ rows <=? i)) with false by lia.
  destruct (nth_error rows _) eqn:N; [eauto|]. apply nth_error_None in N. unfold lenZ in *.
  destruct (Z.ltb_spec i 0); lia.
Qed.
Lemma take_rows_ok {A} (rows : list A) idx xs :
  take_rows rows idx = Ok xs <-> Forall2 (fun i x => designates rows i x) idx xs.
Proof.
  revert xs. induction idx as [|i idx IH]; intros xs; cbn [take_rows].
  - split; [intros [= <-]; constructor|intros H; inversion H; reflexivity].
  - destruct (take_one rows i) as [x|e] eqn:T; cbn [bind].
    + destruct (take_rows rows idx) as [ys|e] eqn:R; cbn [bind].
      * split.
        -- intros [= <-]. constructor; [now apply take_one_ok|now apply IH].
        -- intros H. inversion H as [|? y ? zs D F]; subst. apply take_one_ok in D.
           apply IH in F. congruence.
      * split; [discriminate|]. intros H. inversion H as [|? y ? zs D F]; subst. apply IH in F. discriminate.
    + split; [discriminate|]. intros H. inversion H as [|? y ? zs D F]; subst. apply take_one_ok in D. congruence.
Qed.
Lemma take_rows_total {A} (rows : list A) idx :
  (exists xs, take_rows rows idx = Ok xs) <-> (forall i, In i idx -> - lenZ rows <= i < lenZ rows).
Proof.
  split.
  - intros (xs & H) i Hi. apply take_rows_ok in H. induction H as [|j y idx' ys D F IH]; [destruct Hi|].
    destruct Hi as [<-|Hi]; [apply D|auto].
  - induction idx as [|i idx IH]; intros H; [eexists; reflexivity|].
    destruct (take_one_total rows i) as (x & E); [apply H; now left|].
    destruct IH as (xs & E'); [intros j Hj; apply H; now right|].
    exists (x :: xs). cbn [take_rows]. rewrite E. cbn [bind]. rewrite E'. reflexivity.
Qed.

(* ---- tables ---- *)
Lemma fill_length L vals : 0 <= L -> (length vals <= Z.to_nat L)%nat -> lenZ (fill L vals) = L.
Proof. intros H H'. unfold fill, lenZ. rewrite app_length, repeat_length. lia. Qed.
Lemma fill_written L vals j v : nth_error vals j = Some v -> nth_error (fill L vals) j = Some v.
Proof.
  intros H. unfold fill. rewrite nth_error_app1; [exact H|]. apply nth_error_Some. congruence.
Qed.
Lemma fill_padding L vals j : (length vals <= j)%nat -> (j < Z.to_nat L)%nat -> nth_error (fill L vals) j = Some 0.
Proof.
  intros H H'. unfold fill. rewrite nth_error_app2 by exact H.
  apply nth_error_repeat. lia.
Qed.
Lemma nth_error_firstn' {A} (l : list A) n j : (j < n)%nat -> nth_error (firstn n l) j = nth_error l j.
Proof.
  revert n j. induction l as [|x l IH]; intros n j H.
  - rewrite firstn_nil. reflexivity.
  - destruct n; [lia|]. destruct j; [reflexivity|]. cbn. apply IH. lia.
Qed.

(* ---- lower-cased ASCII words have no capital ---- *)
Lemma lower_char_low c : is_capital (lower_char c) = false.
Proof. destruct c as [[] [] [] [] [] [] [] []]; vm_compute; reflexivity. Qed.
Lemma has_capital_app a b : has_capital (String.append a b) = has_capital a || has_capital b.
Proof. induction a as [|c a IH]; cbn; [reflexivity|]. rewrite IH. apply orb_assoc. Qed.
Lemma cut_low s cur w : has_capital cur = false -> has_capital s = false -> In w (cut s cur) -> has_capital w = false.
Proof.
  revert cur. induction s as [|c s IH]; intros cur Hc Hs; cbn [cut].
  - destruct cur; cbn [flush In]; [tauto|]. intros [<-|[]]. exact Hc.
  - cbn [has_capital] in Hs. apply orb_false_iff in Hs. destruct Hs as [Hh Ht].
    destruct (is_space c).
    + rewrite in_app_iff. intros [H|H].
      * destruct cur; cbn [flush In] in H; [tauto|]. destruct H as [<-|[]]. exact Hc.
      * apply (IH EmptyString); auto.
    + apply IH; [|exact Ht]. rewrite has_capital_app, Hc. cbn. now rewrite Hh.
Qed.
Lemma ascii_words_low s w : In w (ascii_words s) -> has_capital w = false.
Proof.
  unfold ascii_words, ascii_split. apply cut_low; [reflexivity|].
  induction s as [|c s IH]; cbn [ascii_lower has_capital]; [reflexivity|].
  now rewrite lower_char_low, IH.
Qed.

(* ---- the whole step ---- *)
Lemma vocab_fit_ok words c texts fit voc :
  vocab_fit words c texts fit = Ok voc ->
  exists chosen, Forall2 (fun i x => designates texts i x) fit chosen /\ voc = built c (flat_map words chosen).
Proof.
  unfold vocab_fit. destruct (take_rows texts fit) as [chosen|e] eqn:T; cbn [bind]; [|discriminate].
  intros [= <-]. exists chosen. split; [now apply take_rows_ok|reflexivity].
Qed.
Lemma chosen_unique {A} (rows : list A) idx xs ys :
  Forall2 (fun i x => designates rows i x) idx xs -> Forall2 (fun i x => designates rows i x) idx ys -> xs = ys.
Proof. intros H H'. apply take_rows_ok in H, H'. congruence. Qed.
Lemma dget_dset_some d k v k' : dget d k' <> None -> dget (dset d k v) k' <> None.
Proof. rewrite dget_dset. destruct (String.eqb k' k); [congruence|auto]. Qed.
Lemma built_has_unk c ws : dget (built c ws) (v_unk c) <> None.
Proof.
  unfold built. generalize (most_common (counter ws) (v_size c - 2)). intros l.
  assert (H : dget (dset (dset [] (v_pad c) 0) (v_unk c) 1) (v_unk c) <> None).
  { rewrite dget_dset, String.eqb_refl. congruence. }
  revert H. generalize (dset (dset [] (v_pad c) 0) (v_unk c) 1). induction l as [|tc l IH]; intros d H; [exact H|].
  cbn [fold_left]. apply IH. unfold add_candidate. destruct (v_min c <=? snd tc); [|exact H].
  now apply dget_dset_some.
Qed.

Section Rows.
Variables (L : Z) (toks : string -> list string) (f : string -> Z) (texts : list string).
Hypothesis LP : 0 <= L.
Let m := map (fun t => fill L (map f (firstn (Z.to_nat L) (toks t)))) texts.
Lemma rows_table : table m (length texts) L.
Proof using LP.
  split; [apply map_length|]. intros row H. apply in_map_iff in H. destruct H as (t & <- & _).
  apply fill_length; [exact LP|]. rewrite map_length, firstn_length. lia.
Qed.
Lemma rows_word i j t w :
  nth_error texts i = Some t -> nth_error (toks t) j = Some w -> Z.of_nat j < L -> cell m i j = Some (f w).
Proof using LP.
  intros Ht Hw Hj. unfold cell, m. rewrite nth_error_map, Ht. cbn [option_map].
  apply fill_written. rewrite nth_error_map, nth_error_firstn', Hw by lia. reflexivity.
Qed.
Lemma rows_pad i j t :
  nth_error texts i = Some t -> nth_error (toks t) j = None -> Z.of_nat j < L -> cell m i j = Some 0.
Proof using LP.
  intros Ht Hw Hj. unfold cell, m. rewrite nth_error_map, Ht. cbn [option_map].
  apply nth_error_None in Hw. apply fill_padding; [rewrite map_length, firstn_length|]; lia.
Qed.
End Rows.
