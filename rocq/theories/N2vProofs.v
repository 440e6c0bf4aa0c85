From Coq Require Import QArith Qminmax Permutation Sorted Lia Lqa.
From Coq Require Import ZifyBool ZifyNat.
From Verif Require Import Prelude QFacts ListFacts TsvmSpec N2vModel N2vSpec.
From Verif Require TsvmProofs.
Local Open Scope Z_scope.
Local Open Scope list_scope.
Local Notation length := List.length.

(* ---- the adjacency lists *)
Lemma add_edge_length n u adj e : length (add_edge n u adj e) = length adj.
Proof. destruct e as [s d]. unfold add_edge. destruct (_ && _); [|reflexivity]. cbv zeta. destruct u; now rewrite ?update_length. Qed.
Lemma fold_length n u es : forall adj, length (fold_left (add_edge n u) es adj) = length adj.
Proof. induction es as [|e es IH]; intros adj; cbn; [reflexivity|]. now rewrite IH, add_edge_length. Qed.
Lemma update_In (adj : list (list Z)) i d j x : (i < length adj)%nat -> (In x (nth j (update adj i (fun l => l ++ [d])) []) <-> In x (nth j adj []) \/ (j = i /\ x = d)).
Proof.
  intros Hi. rewrite update_nth by exact Hi. destruct (Nat.eqb_spec j i) as [->|N]; [|intuition congruence]. rewrite in_app_iff. cbn. intuition congruence.
Qed.
Lemma add_edge_In n u adj s d i j : lenZ adj = n -> 0 <= i < n -> (In j (nth (Z.to_nat i) (add_edge n u adj (s, d)) []) <->
  In j (nth (Z.to_nat i) adj []) \/ (0 <= j < n /\ i <> j /\ ((s = i /\ d = j) \/ (u = true /\ s = j /\ d = i)))).
Proof.
  intros Hn Hi. unfold add_edge, lenZ in *. destruct (_ && _) eqn:E.
  - rewrite !andb_true_iff, negb_true_iff in E. assert (H : 0 <= s < n /\ 0 <= d < n /\ s <> d) by lia. clear E. destruct H as (H1 & H2 & H3). cbv zeta. destruct u.
    + rewrite update_In by (rewrite update_length; lia). rewrite update_In by lia. split.
      * intros [[H|[E ->]]|[E ->]]; [now left| |]; right; (split; [lia|]; split; [lia|]); [left|right]; repeat split; lia.
      * intros [H|(Hj & Hne & [[-> ->]|(_ & -> & ->)])]; [now left; left|left; right|right]; split; reflexivity.
    + rewrite update_In by lia. split.
      * intros [H|[E ->]]; [now left|]. right. split; [lia|]. split; [lia|]. left. split; lia.
      * intros [H|(Hj & Hne & [[-> ->]|(E & _)])]; [now left| |discriminate]. right; split; reflexivity.
  - split; [auto|]. intros [H|(Hj & Hne & [[-> ->]|(_ & -> & ->)])]; [exact H| |]; exfalso; rewrite !andb_false_iff, negb_false_iff in E; lia.
Qed.
Lemma fold_In n u es : forall adj i j, lenZ adj = n -> 0 <= i < n -> (In j (nth (Z.to_nat i) (fold_left (add_edge n u) es adj) []) <->
  In j (nth (Z.to_nat i) adj []) \/ linked es n u i j).
Proof.
  induction es as [|[s d] es IH]; intros adj i j Hn Hi; cbn [fold_left].
  - unfold linked. cbn. intuition.
  - rewrite IH by (try exact Hi; unfold lenZ in *; now rewrite add_edge_length). rewrite add_edge_In by assumption. unfold linked. cbn [In].
    split.
    + intros [[H|(Hj & Hne & [[-> ->]|(-> & -> & ->)])]|(A & B & C & [D|[E D]])]; [now left| | | |]; right; repeat split; try assumption; try lia; auto.
    + intros [H|(A & B & C & [[[= -> ->]|D]|(E & [[= -> ->]|D])])]; [now left; left| | | |].
      * left. right. auto.
      * right. auto 7.
      * left. right. auto 7.
      * right. auto 7.
Qed.
Lemma build_length es n u : 0 <= n -> lenZ (build_adjacency es n u) = n.
Proof. intros Hn. unfold build_adjacency, lenZ. rewrite map_length, fold_length, repeat_length. lia. Qed.
Lemma nbrs_map l i : nbrs (map uniqueZ l) i = uniqueZ (nth (Z.to_nat i) l []).
Proof. exact (map_nth uniqueZ l [] (Z.to_nat i)). Qed.
Lemma build_In es n u i j : 0 <= i < n -> (In j (nbrs (build_adjacency es n u) i) <-> linked es n u i j).
Proof.
  intros Hi. unfold build_adjacency. rewrite nbrs_map, uniqueZ_In, fold_In; [|unfold lenZ; rewrite repeat_length; lia|exact Hi].
  rewrite nth_repeat. cbn. intuition.
Qed.
Lemma build_sorted es n u i : StronglySorted Z.lt (nbrs (build_adjacency es n u) i).
Proof. unfold build_adjacency. rewrite nbrs_map. apply uniqueZ_ascending. Qed.
Lemma linked_sym es n i j : linked es n true i j -> linked es n true j i.
Proof. intros (A & B & C & [D|[_ D]]); (split; [exact B|]; split; [exact A|]; split; [lia|]); [right; auto|left; exact D]. Qed.

(* ---- the transition probabilities *)
Lemma tiny_pos x : (0 < at_least_tiny x)%Q.
Proof. unfold at_least_tiny. assert ((1 # 1000000000000) <= Qmax x (1 # 1000000000000))%Q by apply Q.le_max_r. eapply Qlt_le_trans; [|exact H]. reflexivity. Qed.
Section Probs.
Variable adj : list (list Z).
Variables p q : Q.
Lemma weight_pos prev x : (0 < weight adj p q prev x)%Q.
Proof using Type.
  unfold weight. change tiny with (1 # 1000000000000). fold (at_least_tiny p) (at_least_tiny q). destruct (x =? prev); [|destruct (memZ x (nbrs adj prev)); [reflexivity|]];
  (apply Qlt_shift_div_l; [apply tiny_pos|]; rewrite Qmult_0_l; reflexivity).
Qed.
Lemma weight_bias link prev x : (In x (nbrs adj prev) <-> link prev x) -> bias link p q prev x (weight adj p q prev x).
Proof using Type.
  intros HL. unfold weight, bias. change tiny with (1 # 1000000000000). fold (at_least_tiny p) (at_least_tiny q). destruct (Z.eqb_spec x prev) as [E|N].
  - split; [intros _; unfold Qdiv; apply Qmult_1_l|]. split; intros; contradiction.
  - split; [intros; contradiction|]. pose proof (memZ_In x (nbrs adj prev)) as M. destruct (memZ x (nbrs adj prev)).
    + split; [reflexivity|]. intros _ H. exfalso. apply H, HL, M. reflexivity.
    + split; [intros _ H; apply HL, M in H; discriminate|]. intros _ _. unfold Qdiv. apply Qmult_1_l.
Qed.
End Probs.
Lemma Qsum_pos (ws : list Q) : ws <> [] -> (forall w, In w ws -> (0 < w)%Q) -> (0 < Qsum ws)%Q.
Proof.
  induction ws as [|w ws IH]; intros N H; [now exfalso; apply N|]. rewrite Qsum_cons. assert (0 < w)%Q by (apply H; now left).
  assert (0 <= Qsum ws)%Q by (apply Qsum_nonneg; intros x Hx; apply Qlt_le_weak, H; now right). lra.
Qed.
Lemma normalised (ws : list Q) : ws <> [] -> (forall w, In w ws -> (0 < w)%Q) -> let ps := map (fun w => (w / Qsum ws)%Q) ws in
  length ps = length ws /\ (Qsum ps == 1)%Q /\ (forall w, In w ps -> (0 < w)%Q) /\ forall k, (nth k ps 0 * Qsum ws == nth k ws 0)%Q.
Proof.
  intros N H ps. pose proof (Qsum_pos ws N H) as P. split; [apply map_length|]. split; [|split].
  - unfold ps. unfold Qdiv. rewrite (Qsum_scale_r (/ Qsum ws) (fun w => w)), map_id. apply Qmult_inv_r. lra.
  - intros w Hw. unfold ps in Hw. apply in_map_iff in Hw as (x & <- & Hx). apply Qlt_shift_div_l; [exact P|]. rewrite Qmult_0_l. now apply H.
  - intros k. unfold ps. destruct (Nat.lt_ge_cases k (length ws)) as [L|L].
    + rewrite (nth_indep _ 0%Q (0 / Qsum ws)%Q) by now rewrite map_length. rewrite (map_nth (fun w => (w / Qsum ws)%Q)). field. lra.
    + rewrite !nth_overflow by (rewrite ?map_length; exact L). ring.
Qed.
Lemma probs_biased adj p q link prev cur : (forall x, In x (nbrs adj prev) <-> link prev x) -> nbrs adj cur <> [] -> biased link p q prev (nbrs adj cur) (probs adj p q prev cur).
Proof.
  intros HL N. unfold probs. set (ws := map (weight adj p q prev) (nbrs adj cur)).
  assert (Nw : ws <> []) by (unfold ws; destruct (nbrs adj cur); [contradiction|discriminate]).
  assert (Pw : forall w, In w ws -> (0 < w)%Q) by (intros w Hw; unfold ws in Hw; apply in_map_iff in Hw as (x & <- & _); apply weight_pos).
  destruct (normalised ws Nw Pw) as (A & B & C & D). cbv zeta in *. split; [rewrite A; unfold ws; apply map_length|]. split; [exact B|]. split; [exact C|].
  exists (Qsum ws). split; [now apply Qsum_pos|]. intros k x Hx. exists (weight adj p q prev x). split; [apply weight_bias, HL|]. rewrite D. unfold ws.
  rewrite (nth_error_nth (map (weight adj p q prev) (nbrs adj cur)) k 0%Q (x := weight adj p q prev x)); [reflexivity|]. now apply map_nth_error.
Qed.

(* ---- one walk *)
Section OneWalk.
Variable R : walk_rng.
Hypothesis RO : rng_ok R.
Variable adj : list (list Z).
Variables p q : Q.
Variable link : Z -> Z -> Prop.
Variable n : Z.
Hypothesis HL : forall i x, 0 <= i < n -> (In x (nbrs adj i) <-> link i x).
Hypothesis HS : forall i, StronglySorted Z.lt (nbrs adj i).
Hypothesis HR : forall i j, link i j -> 0 <= i < n /\ 0 <= j < n.
Lemma nbrs_neighbours cur : 0 <= cur < n -> neighbours link cur (nbrs adj cur).
Proof using All. intros H. split; [apply HS|]. intros x. now apply HL. Qed.
Definition asZ (prev : option Z) : Z := match prev with Some v => v | None => -1 end.
Definition good_prev (prev : option Z) : Prop := match prev with Some v => 0 <= v < n | None => True end.
Lemma one_step prev cur st : good_prev prev -> 0 <= cur < n -> nbrs adj cur <> [] -> exists x st1,
  (if (asZ prev =? -1) || (Qeq_bool p 1 && Qeq_bool q 1) then let (i, st) := wr_integers R st (lenZ (nbrs adj cur)) in (nth (Z.to_nat i) (nbrs adj cur) 0, st)
   else wr_choice R st (nbrs adj cur) (probs adj p q (asZ prev) cur)) = (x, st1) /\ link cur x /\
  forall k w st2, draws link p q R k (Some cur) x st1 w st2 -> draws link p q R (S k) prev cur st (x :: w) st2.
Proof using All.
  intros GP HC HN. destruct RO as (RI & RC & _).
  destruct ((asZ prev =? -1) || (Qeq_bool p 1 && Qeq_bool q 1)) eqn:E.
  - assert (L : 0 < lenZ (nbrs adj cur)) by (unfold lenZ; destruct (nbrs adj cur); [contradiction|cbn; lia]).
    specialize (RI st (lenZ (nbrs adj cur)) L). destruct (wr_integers R st (lenZ (nbrs adj cur))) as [i st1] eqn:EI. cbn [fst] in RI.
    assert (Li : (Z.to_nat i < length (nbrs adj cur))%nat) by (unfold lenZ in RI; lia).
    exists (nth (Z.to_nat i) (nbrs adj cur) 0), st1. split; [reflexivity|]. split; [apply HL; [exact HC|]; now apply nth_In|].
    intros k w st2 HD. eapply draws_uniform; [| now apply nbrs_neighbours | exact HN | exact EI | now apply nth_error_nth' | exact HD].
    apply orb_true_iff in E as [E|E]; [left; destruct prev as [v|]; [cbn in *; lia|reflexivity]|]. right. apply andb_true_iff in E as [E1 E2]. split; now apply Qeq_bool_iff.
  - apply orb_false_iff in E as [E1 E2]. destruct prev as [v|]; [|discriminate]. cbn [asZ] in *. cbn [good_prev] in GP.
    pose proof (probs_biased adj p q link v cur (fun x => HL v x GP) HN) as B. pose proof B as (B1 & B2 & B3 & B4).
    specialize (RC st (nbrs adj cur) (probs adj p q v cur) (eq_sym B1) (fun w Hw => Qlt_le_weak _ _ (B3 w Hw)) B2) as (k & Hk & _).
    destruct (wr_choice R st (nbrs adj cur) (probs adj p q v cur)) as [x st1] eqn:EC. cbn [fst] in Hk. exists x, st1. split; [reflexivity|]. split; [apply HL; [exact HC|]; eapply nth_error_In; exact Hk|].
    intros j w st2 HD. eapply draws_biased; [| now apply nbrs_neighbours | exact HN | exact B | exact EC | exact HD].
    intros [P1 P2]. rewrite (proj2 (Qeq_bool_iff p 1) P1), (proj2 (Qeq_bool_iff q 1) P2) in E2. discriminate.
Qed.
Lemma walk_on_draws k : forall prev cur st, good_prev prev -> 0 <= cur < n ->
  draws link p q R k prev cur st (fst (walk_on R adj p q k (asZ prev) cur st)) (snd (walk_on R adj p q k (asZ prev) cur st)).
Proof using All.
  induction k as [|k IH]; intros prev cur st GP HC; cbn [walk_on]; [constructor|]. destruct (nbrs adj cur) as [|a l] eqn:EN.
  - cbn. constructor. intros x Hx. apply HL in Hx; [|exact HC]. rewrite EN in Hx. destruct Hx.
  - assert (HN : nbrs adj cur <> []) by (rewrite EN; discriminate). rewrite <- EN. destruct (one_step prev cur st GP HC HN) as (x & st1 & E & LX & D). rewrite E.
    pose proof (IH (Some cur) x st1 HC (proj2 (HR _ _ LX))) as H. cbn [asZ] in H. destruct (walk_on R adj p q k cur x st1) as [w st2]. cbn [fst snd] in *. apply D, H.
Qed.
(* what a drawn walk looks like *)
Lemma draws_follows k prev cur st w st' : 0 <= cur < n -> draws link p q R k prev cur st w st' ->
  follows link (cur :: w) /\ (length w <= k)%nat /\ ((length w < k)%nat -> forall x, ~ link (List.last (cur :: w) 0) x) /\ forall v, In v w -> 0 <= v < n.
Proof using All.
  intros HC H. revert HC. induction H as [prev cur st|k prev cur st HX|k prev cur st xs i st1 x w st2 HP HN NE EI Ei HD IH|k prev cur st xs ps x st1 w st2 HP HN NE HB EC HD IH]; intros HC.
  - split; [|split; [cbn; lia|split; [cbn; lia|intros v []]]]. intros [|j] a b; cbn; [intros _ [=]|destruct j; discriminate].
  - split; [|split; [cbn; lia|split; [intros _; exact HX|intros v []]]]. intros [|j] a b; cbn; [intros _ [=]|destruct j; discriminate].
  - assert (LX : link cur x) by (apply HN; eapply nth_error_In; exact Ei). destruct (IH (proj2 (HR _ _ LX))) as (A & B & C & D). split; [|split; [cbn; lia|split]].
    + intros [|j] a b Ha Hb; cbn in Ha, Hb; [injection Ha as <-; injection Hb as <-; exact LX|]. exact (A j a b Ha Hb).
    + intros L. cbn in L. intros y. change (List.last (cur :: x :: w) 0) with (List.last (x :: w) 0). apply C. lia.
    + intros v [<-|Hv]; [exact (proj2 (HR _ _ LX))|now apply D].
  - assert (LX : link cur x).
    { destruct RO as (_ & RC & _). destruct HB as (B1 & B2 & B3 & _). destruct (RC st xs ps (eq_sym B1) (fun w Hw => Qlt_le_weak _ _ (B3 w Hw)) B2) as (j & Hj & _). rewrite EC in Hj. cbn in Hj. apply HN. eapply nth_error_In; exact Hj. }
    destruct (IH (proj2 (HR _ _ LX))) as (A & B & C & D). split; [|split; [cbn; lia|split]].
    + intros [|j] a b Ha Hb; cbn in Ha, Hb; [injection Ha as <-; injection Hb as <-; exact LX|]. exact (A j a b Ha Hb).
    + intros L. cbn in L. intros y. change (List.last (cur :: x :: w) 0) with (List.last (x :: w) 0). apply C. lia.
    + intros v [<-|Hv]; [exact (proj2 (HR _ _ LX))|now apply D].
Qed.
(* all walks *)
Lemma walks_from_drawn num L s : 0 <= s < n -> forall st, walks_drawn link p q R (Z.to_nat (L - 1)) (repeat s num) st (fst (walks_from R adj p q num L s st)) (snd (walks_from R adj p q num L s st)).
Proof using All.
  intros HC. induction num as [|k IH]; intros st; cbn [walks_from repeat]; [constructor|]. pose proof (walk_on_draws (Z.to_nat (L - 1)) None s st I HC) as D. cbn [asZ] in D.
  destruct (walk_on R adj p q (Z.to_nat (L - 1)) (-1) s st) as [w st1]. specialize (IH st1). destruct (walks_from R adj p q k L s st1) as [ws st2]. cbn [fst snd] in *. econstructor; [exact D|exact IH].
Qed.
Lemma walks_drawn_app steps a b st st1 st2 wa wb : walks_drawn link p q R steps a st wa st1 -> walks_drawn link p q R steps b st1 wb st2 -> walks_drawn link p q R steps (a ++ b) st (wa ++ wb) st2.
Proof using Type. induction 1 as [st|s r st w sta ws stb HD HW IH]; intros H; cbn; [exact H|]. econstructor; [exact HD|]. now apply IH. Qed.
Definition start_list (num : Z) (ss : list Z) : list Z := flat_map (fun s => match nbrs adj s with [] => [] | _ :: _ => repeat s (Z.to_nat num) end) ss.
Lemma walks_of_drawn ss num L : (forall s, In s ss -> 0 <= s < n) -> forall st, walks_drawn link p q R (Z.to_nat (L - 1)) (start_list num ss) st (fst (walks_of R adj p q ss num L st)) (snd (walks_of R adj p q ss num L st)).
Proof using All.
  induction ss as [|s ss IH]; intros H st; cbn [walks_of start_list flat_map]; [constructor|]. fold (start_list num ss).
  assert (X : let r := match nbrs adj s with [] => ([], st) | _ :: _ => walks_from R adj p q (Z.to_nat num) L s st end in
    walks_drawn link p q R (Z.to_nat (L - 1)) (match nbrs adj s with [] => [] | _ :: _ => repeat s (Z.to_nat num) end) st (fst r) (snd r)).
  { cbv zeta. destruct (nbrs adj s); [constructor|]. apply walks_from_drawn. apply H. now left. }
  cbv zeta in X. destruct (match nbrs adj s with [] => ([], st) | _ :: _ => walks_from R adj p q (Z.to_nat num) L s st end) as [ws st1].
  specialize (IH (fun v Hv => H v (or_intror Hv)) st1). destruct (walks_of R adj p q ss num L st1) as [ws' st2]. cbn [fst snd] in *. eapply walks_drawn_app; [exact X|exact IH].
Qed.
Lemma walks_drawn_each steps ss st ws st' : (forall s, In s ss -> 0 <= s < n) -> walks_drawn link p q R steps ss st ws st' ->
  map (fun w => hd 0 w) ws = ss /\ forall w, In w ws -> In (hd 0 w) ss /\ w <> [] /\ follows link w /\ (length w <= S steps)%nat /\ ((length w < S steps)%nat -> forall x, ~ link (List.last w 0) x) /\ forall v, In v w -> 0 <= v < n.
Proof using All.
  intros HB H. induction H as [st|s r st w st1 ws st2 HD HW IH]; [split; [reflexivity|intros w []]|]. destruct (IH (fun v Hv => HB v (or_intror Hv))) as [I1 I2]. cbn [map hd]. split; [now rewrite I1|].
  intros u [<-|Hu]; [|destruct (I2 u Hu) as (X & Y); split; [now right|exact Y]].
  destruct (draws_follows _ _ _ _ _ _ (HB s (or_introl eq_refl)) HD) as (A & B & C & D). split; [now left|]. split; [discriminate|]. split; [exact A|]. split; [cbn; lia|]. split; [intros L; apply C; cbn in L; lia|].
  intros v [<-|Hv]; [apply HB; now left|now apply D].
Qed.
End OneWalk.
