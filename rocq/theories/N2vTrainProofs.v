(* Proofs about the pairs of the walks and the training that uses them. *)
From Coq Require Import QArith Qminmax Permutation Sorted Lia Lqa.
From Coq Require Import ZifyBool ZifyNat.
From Verif Require Import Prelude QFacts ListFacts TsvmSpec N2vModel N2vSpec N2vProofs.
From Verif Require TsvmModel TsvmProofs LimitsProofs HgProofs.
Local Open Scope Z_scope.
Local Open Scope list_scope.
Local Notation length := List.length.

Lemma count_app x a b : countZ x (a ++ b) = countZ x a + countZ x b.
Proof. unfold countZ. rewrite count_occ_app. lia. Qed.
Lemma count_repeat x y k : countZ x (repeat y k) = if x =? y then Z.of_nat k else 0.
Proof. unfold countZ. induction k as [|k IH]; cbn [repeat count_occ]; [now destruct (x =? y)|]. destruct (Z.eq_dec y x), (Z.eqb_spec x y); lia. Qed.

(* ---- the walks of a graph *)
Section Graph.
Variable R : walk_rng.
Hypothesis RO : rng_ok R.
Variable edges : list (Z * Z).
Variable n : Z.
Variable u : bool.
Variables p q : Q.
Let adj := build_adjacency edges n u.
Let link := linked edges n u.
Lemma link_range i j : link i j -> 0 <= i < n /\ 0 <= j < n.
Proof using Type. intros (A & B & _). auto. Qed.
Lemma adj_link i x : 0 <= i < n -> (In x (nbrs adj i) <-> link i x).
Proof using Type. apply build_In. Qed.
Definition starts (num : Z) : list Z := start_list adj num (arange n).
Lemma adj_len : 0 <= n -> lenZ adj = n.
Proof using Type. apply build_length. Qed.
Lemma walks_ok num L seed : 0 <= n -> exists st, walks_drawn link p q R (Z.to_nat (L - 1)) (starts num) (wr_seed R seed) (random_walks R adj p q num L seed) st.
Proof using All.
  intros Hn. unfold random_walks. rewrite adj_len by exact Hn. eexists. apply (walks_of_drawn R RO adj p q link n adj_link (build_sorted edges n u) link_range). intros s Hs. now apply arange_In.
Qed.
Lemma starts_in num s : In s (starts num) -> 0 <= s < n /\ exists j, link s j.
Proof using Type.
  unfold starts, start_list. rewrite in_flat_map. intros (v & Hv & H). apply arange_In in Hv. destruct (nbrs adj v) as [|a l] eqn:E; [destruct H|]. apply repeat_spec in H as ->. split; [exact Hv|].
  exists a. apply adj_link; [exact Hv|]. rewrite E. now left.
Qed.
Lemma start_list_count num v ss : NoDup ss -> countZ v (start_list adj num ss) = if memZ v ss then match nbrs adj v with [] => 0 | _ :: _ => Z.max num 0 end else 0.
Proof using Type.
  induction 1 as [|s ss HN ND IH]; [reflexivity|]. unfold start_list in *. cbn [flat_map]. rewrite count_app, IH. cbn [memZ existsb]. fold (memZ v ss).
  destruct (Z.eqb_spec v s) as [->|N]; cbn [orb].
  - replace (memZ s ss) with false; [|symmetry; apply not_true_iff_false; rewrite memZ_In; exact HN]. destruct (nbrs adj s); [reflexivity|]. rewrite count_repeat, Z.eqb_refl. lia.
  - destruct (nbrs adj s); [reflexivity|]. rewrite count_repeat. destruct (Z.eqb_spec v s); [contradiction|]. lia.
Qed.
Lemma starts_count num v : ((exists j, link v j) -> countZ v (starts num) = Z.max num 0) /\ ((forall j, ~ link v j) -> countZ v (starts num) = 0).
Proof using Type.
  unfold starts. rewrite start_list_count by apply arange_NoDup. split.
  - intros [j Hj]. destruct (link_range _ _ Hj) as [Hv _]. rewrite (proj2 (memZ_In v (arange n))) by now apply arange_In. apply adj_link in Hj; [|exact Hv]. destruct (nbrs adj v); [destruct Hj|reflexivity].
  - intros H. destruct (memZ v (arange n)) eqn:E; [|reflexivity]. apply memZ_In, arange_In in E. destruct (nbrs adj v) as [|a l] eqn:EN; [reflexivity|]. exfalso. apply (H a), adj_link; [exact E|]. rewrite EN. now left.
Qed.
Lemma walk_facts num L seed : 0 <= n -> let ws := random_walks R adj p q num L seed in
  map (fun w => hd 0 w) ws = starts num /\ forall w, In w ws -> (exists j, link (hd 0 w) j) /\ w <> [] /\ follows link w /\ (length w <= S (Z.to_nat (L - 1)))%nat /\
    ((length w < S (Z.to_nat (L - 1)))%nat -> forall x, ~ link (List.last w 0) x) /\ forall v, In v w -> 0 <= v < n.
Proof using All.
  intros Hn ws. destruct (walks_ok num L seed Hn) as [st H].
  destruct (walks_drawn_each R RO adj p q link n adj_link (build_sorted edges n u) link_range _ _ _ _ _ (fun s Hs => proj1 (starts_in num s Hs)) H) as [A B]. split; [exact A|].
  intros w Hw. destruct (B w Hw) as (C & D). split; [exact (proj2 (starts_in _ _ C))|exact D].
Qed.
(* a walk of a node with a neighbour takes at least one step, if it may *)
Lemma walk_moves num L seed w : 0 <= n -> 2 <= L -> In w (random_walks R adj p q num L seed) -> (2 <= length w)%nat.
Proof using All.
  intros Hn HL Hw. destruct (walk_facts num L seed Hn) as [_ F]. cbv zeta in F. destruct (F w Hw) as ([j Hj] & NE & _ & _ & SH & _).
  destruct w as [|a [|b w]]; [contradiction| |cbn; lia]. exfalso. apply (SH ltac:(cbn; lia) j). exact Hj.
Qed.
End Graph.

(* ---- the pairs *)
Definition js (w : list Z) (window : Z) (i : nat) : list nat :=
  let j0 := Z.to_nat (Z.max 0 (Z.of_nat i - window)) in let j1 := Z.to_nat (Z.min (lenZ w) (Z.of_nat i + window + 1)) in
  filter (fun j => negb (Nat.eqb j i)) (seq j0 (j1 - j0)).
Definition spots (walks : list (list Z)) (window : Z) : list (nat * nat * nat) :=
  flat_map (fun a => flat_map (fun i => map (fun j => (a, i, j)) (js (nth a walks []) window i)) (seq 0 (length (nth a walks [])))) (seq 0 (length walks)).
Lemma js_In w window i j : (i < length w)%nat -> (In j (js w window i) <-> (j < length w)%nat /\ i <> j /\ Z.abs (Z.of_nat i - Z.of_nat j) <= window).
Proof. intros Hi. unfold js. rewrite filter_In, in_seq, negb_true_iff, Nat.eqb_neq. unfold lenZ. lia. Qed.
Lemma spots_In walks window t : In t (spots walks window) <-> close_by walks window t.
Proof.
  destruct t as [[a i] j]. unfold spots, close_by. rewrite in_flat_map. split.
  - intros (a' & Ha & H). apply in_flat_map in H as (i' & Hi & H). apply in_map_iff in H as (j' & [= -> -> ->] & Hj). apply in_seq in Ha, Hi. apply js_In in Hj; [|lia]. intuition lia.
  - intros (Ha & Hi & Hj & Hne & Hw). exists a. split; [apply in_seq; lia|]. apply in_flat_map. exists i. split; [apply in_seq; lia|]. apply (in_map (fun j => (a, i, j))). apply js_In; auto.
Qed.
Lemma NoDup_flat_map {A B} (f : A -> list B) l : NoDup l -> (forall x, In x l -> NoDup (f x)) -> (forall x y b, In x l -> In y l -> In b (f x) -> In b (f y) -> x = y) -> NoDup (flat_map f l).
Proof.
  intros H. induction H as [|x l HN ND IH]; intros H1 H2; cbn; [constructor|]. apply LimitsProofs.nodup_app.
  - apply H1. now left.
  - apply IH; intros; [apply H1; now right|]. eapply H2; eauto; now right.
  - intros b Hb Hc. apply in_flat_map in Hc as (y & Hy & Hc). assert (x = y) by (eapply H2; eauto; [now left|now right]). subst y. contradiction.
Qed.
Lemma NoDup_map_inj {A B} (f : A -> B) l : (forall x y, f x = f y -> x = y) -> NoDup l -> NoDup (map f l).
Proof. intros HF. induction 1 as [|x l HN ND IH]; cbn; constructor; [|exact IH]. intros H. apply in_map_iff in H as (y & E & Hy). apply HF in E as ->. contradiction. Qed.
Lemma spots_NoDup walks window : NoDup (spots walks window).
Proof.
  unfold spots. apply NoDup_flat_map; [apply seq_NoDup| |].
  - intros a _. apply NoDup_flat_map; [apply seq_NoDup| |].
    + intros i _. apply NoDup_map_inj; [now intros x y [= ->]|]. unfold js. apply NoDup_filter, seq_NoDup.
    + intros x y b _ _ Hx Hy. apply in_map_iff in Hx as (j & <- & _). apply in_map_iff in Hy as (j' & [= -> ->] & _). reflexivity.
  - intros x y b _ _ Hx Hy. apply in_flat_map in Hx as (i & _ & Hx). apply in_map_iff in Hx as (j & <- & _). apply in_flat_map in Hy as (i' & _ & Hy). apply in_map_iff in Hy as (j' & [= -> -> ->] & _). reflexivity.
Qed.
Lemma flat_map_nth {A B} (f : A -> list B) (d : A) l : flat_map f l = flat_map (fun a => f (nth a l d)) (seq 0 (length l)).
Proof. induction l as [|x l IH]; [reflexivity|]. cbn [length seq flat_map nth]. f_equal. rewrite IH, <- seq_shift, !flat_map_concat_map, map_map. reflexivity. Qed.
Lemma map_flat_map {A B C} (g : B -> C) (f : A -> list B) l : map g (flat_map f l) = flat_map (fun x => map g (f x)) l.
Proof. induction l as [|x l IH]; cbn; [reflexivity|]. now rewrite map_app, IH. Qed.
Lemma walk_pairs_spots walks window : walk_pairs walks window = map (pair_at walks) (spots walks window).
Proof.
  unfold walk_pairs, spots. rewrite (flat_map_nth _ []), map_flat_map. apply flat_map_ext. intros a. rewrite map_flat_map. apply flat_map_ext. intros i. rewrite map_map. reflexivity.
Qed.
Lemma pairs_symmetric walks window : Permutation (walk_pairs walks window) (map (fun ab => (snd ab, fst ab)) (walk_pairs walks window)).
Proof.
  rewrite walk_pairs_spots, map_map. set (sw := fun t : nat * nat * nat => let '(a, i, j) := t in (a, j, i)).
  rewrite (map_ext (fun t => (snd (pair_at walks t), fst (pair_at walks t))) (fun t => pair_at walks (sw t))) by (intros [[a i] j]; reflexivity). rewrite <- (map_map sw (pair_at walks)). apply Permutation_map. apply NoDup_Permutation; [apply spots_NoDup| |].
  - apply NoDup_map_inj; [|apply spots_NoDup]. now intros [[? ?] ?] [[? ?] ?] [= -> -> ->].
  - intros [[a i] j]. rewrite in_map_iff, spots_In. split.
    + intros H. exists (a, j, i). split; [reflexivity|]. apply spots_In. cbn in *. intuition lia.
    + intros ([[a' i'] j'] & [= -> -> ->] & H). apply spots_In in H. cbn in *. intuition lia.
Qed.
Lemma follows_neighbour (link : Z -> Z -> Prop) w k x : follows link w -> (2 <= length w)%nat -> nth_error w k = Some x -> exists y, link x y \/ link y x.
Proof.
  intros F L H. assert (K : (k < length w)%nat) by (apply nth_error_Some; congruence). destruct (nth_error w (S k)) as [y|] eqn:E; [exists y; left; eapply F; eassumption|].
  apply nth_error_None in E. destruct k as [|k]; [lia|]. destruct (nth_error w k) as [y|] eqn:E'; [exists y; right; eapply F; eassumption|]. apply nth_error_None in E'. lia.
Qed.
Lemma pair_nodes (link : Z -> Z -> Prop) walks window a b : (forall w, In w walks -> follows link w) -> In (a, b) (walk_pairs walks window) ->
  (exists x, link a x \/ link x a) /\ exists x, link b x \/ link x b.
Proof.
  intros F H. rewrite walk_pairs_spots in H. apply in_map_iff in H as ([[k i] j] & E & H). apply spots_In in H as (Hk & Hi & Hj & Hne & _). cbn [pair_at] in E. injection E as <- <-.
  assert (FW : follows link (nth k walks [])) by (apply F, nth_In, Hk). split; eapply follows_neighbour; try exact FW; try lia; apply nth_error_nth'; assumption.
Qed.
Lemma pairs_nonempty walks window : walk_pairs walks window <> [] <-> 1 <= window /\ exists w, In w walks /\ (2 <= length w)%nat.
Proof.
  rewrite walk_pairs_spots. split.
  - intros H. destruct (spots walks window) as [|[[a i] j] r] eqn:E; [now destruct H|]. assert (S' : In (a, i, j) (spots walks window)) by (rewrite E; now left).
    apply spots_In in S' as (Ha & Hi & Hj & Hne & Hw). split; [lia|]. exists (nth a walks []). split; [now apply nth_In|lia].
  - intros (Hw & w & Hi & HL). apply (In_nth _ _ []) in Hi as (a & Ha & <-). assert (S' : In (a, 0%nat, 1%nat) (spots walks window)) by (apply spots_In; cbn; lia).
    destruct (spots walks window); [destruct S'|discriminate].
Qed.
Lemma graph_pairs_nonempty R edges n u p q num L seed window : rng_ok R -> 0 <= n ->
  (walk_pairs (random_walks R (build_adjacency edges n u) p q num L seed) window <> [] <-> 1 <= window /\ 1 <= num /\ 2 <= L /\ exists i j, linked edges n u i j).
Proof.
  intros RO Hn. rewrite pairs_nonempty. destruct (walk_facts R RO edges n u p q num L seed Hn) as [M F]. cbv zeta in *. set (ws := random_walks R _ p q num L seed) in *. split.
  - intros (Hw & w & Hi & HL). destruct (F w Hi) as ([j Hj] & NE & _ & LE & _). split; [exact Hw|]. split; [|split; [lia|eauto]].
    assert (HS : In (hd 0 w) (starts edges n u num)) by (rewrite <- M; exact (in_map (fun w => hd 0 w) ws w Hi)). apply countZ_pos in HS. destruct (starts_count edges n u num (hd 0 w)) as [C _]. rewrite C in HS by eauto. lia.
  - intros (Hw & H1 & H2 & i & j & Hl). split; [exact Hw|]. destruct (starts_count edges n u num i) as [C _]. specialize (C (ex_intro _ j Hl)).
    assert (HS : In i (starts edges n u num)) by (apply countZ_pos; lia). rewrite <- M in HS. apply in_map_iff in HS as (w & _ & Hi). exists w. split; [exact Hi|]. eapply walk_moves; eauto.
Qed.

(* ---- the negative sampling distribution *)
Lemma dist_ok pow adj : pow_ok pow -> adj <> [] -> lenZ (negative_dist pow adj) = lenZ adj /\ (forall w, In w (negative_dist pow adj) -> (0 <= w)%Q) /\ (Qsum (negative_dist pow adj) == 1)%Q.
Proof.
  intros HP HN. unfold negative_dist. set (d := map _ adj). assert (Hd : d <> []) by (unfold d; destruct adj; [contradiction|discriminate]).
  assert (Pd : forall w, In w d -> (0 < w)%Q) by (intros w Hw; unfold d in Hw; apply in_map_iff in Hw as (l & <- & _); apply HP; apply Q.le_max_r).
  destruct (normalised d Hd Pd) as (A & B & C & _). cbv zeta in *. split; [unfold lenZ; rewrite A; unfold d; now rewrite map_length|]. split; [intros w Hw; apply Qlt_le_weak, C, Hw|exact B].
Qed.

(* ---- the training *)
Lemma where_true_In mask v : In v (where_true mask) <-> 0 <= v /\ nth (Z.to_nat v) mask false = true.
Proof.
  unfold where_true. rewrite in_map_iff. split.
  - intros (i & <- & H). apply filter_In in H as [_ H]. rewrite Nat2Z.id. split; [lia|exact H].
  - intros [H1 H2]. exists (Z.to_nat v). split; [lia|]. apply filter_In. split; [|exact H2]. apply in_seq. destruct (Nat.lt_ge_cases (Z.to_nat v) (length mask)) as [L|L]; [lia|]. rewrite nth_overflow in H2 by exact L. discriminate.
Qed.
Lemma where_true_NoDup mask : NoDup (where_true mask).
Proof. unfold where_true. apply NoDup_map_inj; [intros x y; lia|]. apply NoDup_filter, seq_NoDup. Qed.
Lemma where_true_len mask : lenZ (where_true mask) = lenZ (filter (fun x => x) mask).
Proof.
  unfold where_true, lenZ. rewrite map_length. f_equal. induction mask as [|b m IH]; [reflexivity|]. cbn [length seq filter nth]. rewrite <- seq_shift.
  assert (E : length (filter (fun i => nth i (b :: m) false) (map S (seq 0 (length m)))) = length (filter (fun i => nth i m false) (seq 0 (length m)))).
  { generalize (seq 0 (length m)) as l. induction l as [|x l IHl]; [reflexivity|]. cbn [map filter]. change (nth (S x) (b :: m) false) with (nth x m false). destruct (nth x m false); cbn [length]; [f_equal|]; exact IHl. }
  destruct b; cbn [length]; [f_equal|]; exact (eq_trans E IH).
Qed.
Section Training.
Variable R : walk_rng.
Hypothesis RO : rng_ok R.
Variables Theta T : Type.
Variable step : Theta -> batch -> Theta.
Variable randperm : T -> Z -> list Z * T.
Hypothesis RP : randperm_ok randperm.
Variable pairs : list (Z * Z).
Variable dist : list Q.
Variables n num sup : Z.
Variable train : list bool.
Variable y : list Z.
Hypothesis Hn : 0 < n.
Hypothesis Hs : 0 <= sup.
Hypothesis HD : lenZ dist = n /\ (forall w, In w dist -> (0 <= w)%Q) /\ (Qsum dist == 1)%Q.
Let tr := where_true train.
Notation run := (run_batches R Theta T step randperm pairs dist n num sup tr y).
Notation epochs := (run_epochs R Theta T step randperm pairs dist n num sup tr y).
Lemma labelled_facts t : let s := fst (labelled_batch T randperm sup tr t) in
  NoDup s /\ (forall v, In v s -> 0 <= v /\ nth (Z.to_nat v) train false = true) /\ lenZ s = Z.min (lenZ (filter (fun x => x) train)) sup.
Proof using RP Hs.
  clear RO HD Hn. unfold labelled_batch. rewrite <- where_true_len. fold tr. destruct (lenZ tr >? sup) eqn:E; cbv zeta.
  - specialize (RP t (lenZ tr)). destruct (randperm t (lenZ tr)) as [sel t']. cbn [fst] in *.
    assert (NDs : NoDup (firstn (Z.to_nat sup) sel)).
    { assert (N : NoDup sel) by (eapply Permutation_NoDup; [symmetry; exact RP|apply arange_NoDup]). rewrite <- (firstn_skipn (Z.to_nat sup) sel) in N. exact (proj1 (HgProofs.NoDup_app_parts _ _ _ N)). }
    assert (Is : forall k, In k (firstn (Z.to_nat sup) sel) -> 0 <= k < lenZ tr).
    { intros k Hk. apply arange_In. eapply Permutation_in; [exact RP|]. rewrite <- (firstn_skipn (Z.to_nat sup) sel). apply in_or_app. now left. }
    split; [|split].
    + assert (ND : NoDup tr) by apply where_true_NoDup. clear RP E. induction NDs as [|k l HN NDl IH]; cbn; [constructor|]. constructor; [|apply IH; intros; apply Is; now right].
      intros H. apply in_map_iff in H as (k' & Ek & Hk'). pose proof (Is k (or_introl eq_refl)). pose proof (Is k' (or_intror Hk')). unfold lenZ in *.
      apply (proj1 (NoDup_nth tr 0) ND) in Ek; [|lia|lia]. assert (k = k') by lia. subst. contradiction.
    + intros v Hv. apply in_map_iff in Hv as (k & <- & Hk). apply where_true_In. fold tr. apply nth_In. specialize (Is k Hk). unfold lenZ in Is. lia.
    + unfold lenZ. rewrite map_length, firstn_length, (Permutation_length RP), arange_length. unfold lenZ in *. lia.
  - cbn [fst]. split; [apply where_true_NoDup|]. split; [intros v; apply where_true_In|]. lia.
Qed.
Definition one_batch (idx : list Z) (b : batch) : Prop :=
  combine (ba_centers b) (ba_contexts b) = map (fun k => nth (Z.to_nat k) pairs (0, 0)) idx /\ length (ba_centers b) = length (ba_contexts b) /\ negatives_ok n num b /\ labelled_ok train y sup b.
Lemma run_batches_ok idxs : forall th st t, exists bs, Forall2 one_batch idxs bs /\ fst (fst (run idxs th st t)) = fold_left step bs th.
Proof using All.
  induction idxs as [|idx r IH]; intros th st t; cbn [run_batches]; [exists []; split; [constructor|reflexivity]|]. cbv zeta.
  destruct RO as (_ & _ & _ & RR). destruct HD as (D1 & D2 & D3). specialize (RR st n (lenZ idx) num dist Hn ltac:(unfold lenZ; lia) D1 D2 D3).
  destruct (wr_rows R st n (lenZ idx) num dist) as [neg st1]. cbn [fst] in RR. pose proof (labelled_facts t) as LF. destruct (labelled_batch T randperm sup tr t) as [s t1]. cbn [fst] in LF. cbv zeta in LF.
  set (b := {| ba_centers := _; ba_contexts := _; ba_negatives := _; ba_nodes := _; ba_labels := _ |}). destruct (IH (step th b) st1 t1) as (bs & HF & E). exists (b :: bs). split; [|rewrite E; reflexivity].
  constructor; [|exact HF]. unfold b, one_batch, negatives_ok, labelled_ok. cbn [ba_centers ba_contexts ba_negatives ba_nodes ba_labels]. split; [|split; [now rewrite !map_length|split; [|now intuition]]].
  - generalize (map (fun k => nth (Z.to_nat k) pairs (0, 0)) idx) as l. induction l as [|[a c] l IHl]; cbn; [reflexivity|]. now rewrite IHl.
  - destruct RR as [R1 R2]. split; [rewrite R1, !map_length; unfold lenZ; lia|exact R2].
Qed.
Lemma epoch_batches B order bs : 0 < B -> Permutation order (arange (lenZ pairs)) -> Forall2 one_batch (TsvmModel.slices (length order) (Z.to_nat B) order) bs -> an_epoch pairs B bs.
Proof using Type.
  intros HB HP HF. exists (map (fun k => nth (Z.to_nat k) pairs (0, 0)) order). split; [|split].
  - transitivity (map (fun k => nth (Z.to_nat k) pairs (0, 0)) (arange (lenZ pairs))); [now apply Permutation_map|]. unfold arange, lenZ. rewrite Nat2Z.id, map_map. rewrite (map_ext _ (fun i => nth i pairs (0, 0))) by (intros i; now rewrite Nat2Z.id). now rewrite map_nth_seq.
  - replace (map (fun b => combine (ba_centers b) (ba_contexts b)) bs) with (map (map (fun k => nth (Z.to_nat k) pairs (0, 0))) (TsvmModel.slices (length order) (Z.to_nat B) order)).
    + apply TsvmProofs.cut_map, TsvmProofs.slices_cut; lia.
    + clear HP. induction HF as [|x b xs bs (E & _) _ IH]; cbn; [reflexivity|]. now rewrite E, IH.
  - clear HP. induction HF as [|x c xs bs (_ & E & _) _ IH]; [intros b []|]. intros b [<-|Hb]; auto.
Qed.
Lemma one_batch_side idxs bs : Forall2 one_batch idxs bs -> forall b, In b bs -> negatives_ok n num b /\ labelled_ok train y sup b.
Proof using Type. induction 1 as [|x c xs bs (_ & _ & E) _ IH]; [intros b []|]. intros b [<-|Hb]; auto. Qed.
Lemma run_epochs_ok B k : forall order th st t th' t', Permutation order (arange (lenZ pairs)) -> 0 < B -> epochs k B order th st t = Ok (th', t') ->
  exists es, length es = k /\ Forall (an_epoch pairs B) es /\ (forall b, In b (concat es) -> negatives_ok n num b /\ labelled_ok train y sup b) /\ th' = fold_left step (concat es) th.
Proof using All.
  induction k as [|k IH]; intros order th st t th' t' HP HB E; cbn [run_epochs] in E; [injection E as <- <-; exists []; split; [reflexivity|split; [constructor|split; [intros b []|reflexivity]]]|].
  destruct RO as (_ & _ & RS & _). specialize (RS st order). destruct (wr_shuffle R st order) as [order1 st1]. cbn [fst] in RS.
  assert (HP1 : Permutation order1 (arange (lenZ pairs))) by (etransitivity; eassumption).
  destruct (Z.eqb_spec B 0); [lia|]. destruct (Z.ltb_spec B 0); [lia|]. cbv zeta in E.
  destruct (run_batches_ok (TsvmModel.slices (length order1) (Z.to_nat B) order1) th st1 t) as (bs & HF & EB). destruct (run _ th st1 t) as [[th1 st2] t2]. cbn [fst] in EB. subst th1.
  destruct (IH order1 _ st2 t2 th' t' HP1 HB E) as (es & L & A & S' & ET). exists (bs :: es). split; [cbn; lia|]. split; [constructor; [eapply epoch_batches; eassumption|exact A]|]. split.
  - intros b Hb. cbn in Hb. apply in_app_or in Hb as [Hb|Hb]; [eapply one_batch_side; eassumption|now apply S'].
  - cbn. now rewrite fold_left_app.
Qed.
(* only the labels of the training nodes are read *)
Variable y' : list Z.
Hypothesis HY : forall v, 0 <= v -> nth (Z.to_nat v) train false = true -> nth (Z.to_nat v) y 0 = nth (Z.to_nat v) y' 0.
Lemma run_batches_y idxs : forall th st t, run idxs th st t = run_batches R Theta T step randperm pairs dist n num sup tr y' idxs th st t.
Proof using RP Hs HY.
  induction idxs as [|idx r IH]; intros th st t; cbn [run_batches]; [reflexivity|]. cbv zeta. destruct (wr_rows R st n (lenZ idx) num dist) as [neg st1].
  pose proof (labelled_facts t) as LF. destruct (labelled_batch T randperm sup tr t) as [s t1]. cbn [fst] in LF. cbv zeta in LF.
  replace (map (fun v => nth (Z.to_nat v) y 0) s) with (map (fun v => nth (Z.to_nat v) y' 0) s); [apply IH|]. apply map_ext_in. intros v Hv. symmetry. destruct LF as (_ & LF & _). apply HY; now apply LF.
Qed.
Lemma run_epochs_y B k : forall order th st t, epochs k B order th st t = run_epochs R Theta T step randperm pairs dist n num sup tr y' k B order th st t.
Proof using RP Hs HY.
  induction k as [|k IH]; intros order th st t; cbn [run_epochs]; [reflexivity|]. destruct (wr_shuffle R st order) as [order1 st1]. destruct (B =? 0); [reflexivity|]. cbv zeta. rewrite run_batches_y.
  destruct (run_batches _ _ _ _ _ _ _ _ _ _ _ _ _ _ _ _) as [[th1 st2] t2]. apply IH.
Qed.
End Training.
Lemma run_epochs_total R Theta T step randperm pairs dist n num sup tr y B k : forall order th st t, (exists r, run_epochs R Theta T step randperm pairs dist n num sup tr y k B order th st t = Ok r) <-> (k <> 0%nat -> B <> 0).
Proof.
  induction k as [|k IH]; intros order th st t; cbn [run_epochs]; [split; [congruence|eauto]|]. destruct (wr_shuffle R st order) as [order1 st1]. destruct (Z.eqb_spec B 0) as [E|N].
  - split; [intros [r [=]]|]. intros H. exfalso. now apply H.
  - cbv zeta. destruct (run_batches _ _ _ _ _ _ _ _ _ _ _ _ _ _ _ _) as [[th1 st2] t2]. rewrite IH. split; intros; auto.
Qed.
Lemma run_epochs_negative R Theta T step randperm pairs dist n num sup tr y B k : B < 0 -> forall order th st t, run_epochs R Theta T step randperm pairs dist n num sup tr y k B order th st t = Ok (th, t).
Proof.
  intros HB. induction k as [|k IH]; intros order th st t; cbn [run_epochs]; [reflexivity|]. destruct (wr_shuffle R st order) as [order1 st1]. destruct (Z.eqb_spec B 0); [lia|]. destruct (Z.ltb_spec B 0); [|lia]. apply IH.
Qed.
Lemma run_epochs_err R Theta T step randperm pairs dist n num sup tr y B k : forall order th st t e, run_epochs R Theta T step randperm pairs dist n num sup tr y k B order th st t = Err e -> e = ValueError.
Proof.
  induction k as [|k IH]; intros order th st t e; cbn [run_epochs]; [discriminate|]. destruct (wr_shuffle R st order) as [order1 st1]. destruct (B =? 0); [congruence|]. cbv zeta.
  destruct (run_batches _ _ _ _ _ _ _ _ _ _ _ _ _ _ _ _) as [[th1 st2] t2]. apply IH.
Qed.
(* without labelled nodes the generator of torch is not used *)
Lemma run_epochs_unlabelled R Theta T step rp rp' pairs dist n num y B k : forall order th st t,
  run_epochs R Theta T step rp pairs dist n num 0 [] y k B order th st t = run_epochs R Theta T step rp' pairs dist n num 0 [] y k B order th st t.
Proof.
  assert (X : forall idxs th st t, run_batches R Theta T step rp pairs dist n num 0 [] y idxs th st t = run_batches R Theta T step rp' pairs dist n num 0 [] y idxs th st t).
  { induction idxs as [|idx r IH]; intros th st t; cbn [run_batches]; [reflexivity|]. cbv zeta. destruct (wr_rows R st n (lenZ idx) num dist) as [neg st1]. unfold labelled_batch. cbn [lenZ List.length Z.of_nat Z.gtb Z.compare]. apply IH. }
  induction k as [|k IH]; intros order th st t; cbn [run_epochs]; [reflexivity|]. destruct (wr_shuffle R st order) as [order1 st1]. destruct (B =? 0); [reflexivity|]. cbv zeta. rewrite X. destruct (run_batches _ _ _ _ _ _ _ _ _ _ _ _ _ _ _ _) as [[th1 st2] t2]. apply IH.
Qed.
Lemma start_list_sorted adj num ss : StronglySorted Z.lt ss -> StronglySorted Z.le (start_list adj num ss).
Proof.
  induction 1 as [|s ss SS IH FA]; [constructor|]. unfold start_list in *. cbn [flat_map]. assert (G : Forall (Z.le s) (flat_map (fun s => match nbrs adj s with [] => [] | _ :: _ => repeat s (Z.to_nat num) end) ss)).
  { rewrite Forall_forall in *. intros x Hx. apply in_flat_map in Hx as (v & Hv & Hx). specialize (FA v Hv). destruct (nbrs adj v); [destruct Hx|]. apply repeat_spec in Hx. lia. }
  destruct (nbrs adj s); [exact IH|]. induction (Z.to_nat num) as [|k IHk] in |- * at 1; cbn [repeat app]; [exact IH|]. constructor; [exact IHk|]. rewrite Forall_forall in *. intros x Hx. apply in_app_or in Hx as [Hx|Hx]; [apply repeat_spec in Hx; lia|now apply G].
Qed.
