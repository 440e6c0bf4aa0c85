(* Poisson MBO: the symmetrised graph, the rounds and the run. *)
From Coq Require Import QArith Qminmax Qabs Lqa ZifyBool ZifyNat.
From Verif Require Import Prelude ListFacts SampleServiceProofs QFacts TransModel TransSpec TransProofs TransSolveProofs DeepLossSpec PoissonModel PoissonSpec PoissonProofs.
Local Open Scope Q_scope.
Local Open Scope list_scope.
Local Notation length := List.length.

(* ---- the graph *)
Lemma weight_app E1 E2 i j : weight_from (E1 ++ E2) i j == weight_from E1 i j + weight_from E2 i j.
Proof. unfold weight_from. rewrite filter_app, map_app, Qsum_app. reflexivity. Qed.
Lemma weight_flip E i j : weight_from (map (fun e => (e_dst e, e_src e, e_w e)) E) i j == weight_from E j i.
Proof.
  unfold weight_from. induction E as [|e E IH]; [reflexivity|]. cbn [map filter]. change (e_dst (e_dst e, e_src e, e_w e)) with (e_src e). change (e_src (e_dst e, e_src e, e_w e)) with (e_dst e).
  rewrite (andb_comm (e_src e =? Z.of_nat i)%Z). destruct ((e_dst e =? Z.of_nat j)%Z && (e_src e =? Z.of_nat i)%Z); [|exact IH]. cbn [map]. rewrite !Qsum_cons, IH. reflexivity.
Qed.
Lemma weight_no_loops E i j : weight_from (without_loops E) i j == if Nat.eqb i j then 0 else weight_from E i j.
Proof.
  unfold weight_from, without_loops. induction E as [|e E IH]; [destruct (Nat.eqb i j); reflexivity|]. cbn [filter].
  destruct (Z.eqb_spec (e_src e) (e_dst e)) as [Hl|Hl]; cbn [negb].
  - rewrite IH. destruct (Nat.eqb_spec i j); [reflexivity|]. destruct ((e_dst e =? Z.of_nat i)%Z && (e_src e =? Z.of_nat j)%Z) eqn:Ec; [lia|reflexivity].
  - cbn [filter]. destruct ((e_dst e =? Z.of_nat i)%Z && (e_src e =? Z.of_nat j)%Z) eqn:Ec; [|exact IH]. cbn [map]. rewrite !Qsum_cons, IH. destruct (Nat.eqb_spec i j); [lia|reflexivity].
Qed.
Lemma mbo_edges_weight sym zero E i j : weight_from (mbo_edges sym zero E) i j == mbo_weight sym zero E i j.
Proof.
  unfold mbo_edges, mbo_weight. cbv zeta. destruct sym, zero; cbn [andb]; rewrite ?weight_no_loops; destruct (Nat.eqb i j); rewrite ?weight_app, ?weight_flip; lra.
Qed.
Lemma mbo_edges_range sym zero n E : in_range n E -> in_range n (mbo_edges sym zero E).
Proof.
  intros H. assert (H1 : in_range n (if sym then E ++ map (fun e => (e_dst e, e_src e, e_w e)) E else E)).
  { destruct sym; [|exact H]. intros e He. apply in_app_iff in He as [He|He]; [apply H, He|]. apply in_map_iff in He as (e' & <- & He'). destruct (H e' He'). cbn. auto. }
  unfold mbo_edges. destruct zero; [|exact H1]. intros e He. apply filter_In in He as [He _]. apply H1, He.
Qed.
Lemma mbo_weight_symmetric zero E i j : mbo_weight true zero E i j == mbo_weight true zero E j i.
Proof. unfold mbo_weight. rewrite (Nat.eqb_sym j i). destruct (zero && Nat.eqb i j); lra. Qed.
Lemma mbo_weight_nonneg sym zero E i j : (forall e, In e E -> 0 <= e_w e) -> 0 <= mbo_weight sym zero E i j.
Proof. intros H. unfold mbo_weight. pose proof (weight_nonneg E i j H). pose proof (weight_nonneg E j i H). destruct (_ && _); [lra|]. destruct sym; lra. Qed.

(* ---- the largest entry *)
Lemma fold_right_max l : 0 <= fold_right Qmax 0 l /\ (forall x, In x l -> x <= fold_right Qmax 0 l) /\ (fold_right Qmax 0 l == 0 \/ exists x, In x l /\ fold_right Qmax 0 l == x).
Proof.
  induction l as [|a l (H1 & H2 & H3)]; cbn [fold_right]; [split; [lra|split; [intros x []|left; reflexivity]]|].
  pose proof (Q.le_max_l a (fold_right Qmax 0 l)). pose proof (Q.le_max_r a (fold_right Qmax 0 l)). split; [lra|]. split; [intros x [->|Hx]; [lra|specialize (H2 x Hx); lra]|].
  destruct (Q.max_spec a (fold_right Qmax 0 l)) as [[_ Hm]|[_ Hm]]; [|right; exists a; split; [left; reflexivity|exact Hm]].
  destruct H3 as [H3|(x & Hx & H3)]; [left|right; exists x; split; [right; exact Hx|]]; (eapply Qeq_trans; [exact Hm|exact H3]).
Qed.
Lemma max_abs_largest n k (u G F : nat -> nat -> Q) : (0 < n)%nat -> (0 < k)%nat -> (forall i c, (i < n)%nat -> (c < k)%nat -> G i c == F i c + u i c) ->
  largest_change n k G F (max_abs (tabulate n k u)).
Proof.
  intros Hn Hk HG. unfold max_abs, tabulate. rewrite map_map. set (row := fun i => fold_right Qmax 0 (map Qabs (map (u i) (seq 0 k)))).
  assert (HR : forall i c, (i < n)%nat -> (c < k)%nat -> Qabs (G i c - F i c) == Qabs (u i c)) by (intros i c Hi Hc; apply Qabs_wd; rewrite (HG i c Hi Hc); ring).
  assert (Hrow : forall i c, (c < k)%nat -> Qabs (u i c) <= row i) by (intros i c Hc; apply fold_right_max; rewrite map_map; apply in_map_iff; exists c; split; [reflexivity|apply in_seq; lia]).
  destruct (fold_right_max (map row (seq 0 n))) as (M0 & M1 & M2). split.
  - intros i c Hi Hc. rewrite (HR i c Hi Hc). specialize (Hrow i c Hc). assert (row i <= fold_right Qmax 0 (map row (seq 0 n))) by (apply M1, in_map_iff; exists i; split; [reflexivity|apply in_seq; lia]). lra.
  - destruct M2 as [M2|(x & Hx & M2)].
    + exists 0%nat, 0%nat. split; [exact Hn|]. split; [exact Hk|]. rewrite (HR _ _ Hn Hk). apply Qle_antisym; [rewrite M2; apply Qabs_nonneg|]. specialize (Hrow 0%nat 0%nat Hk). assert (row 0%nat <= fold_right Qmax 0 (map row (seq 0 n))) by (apply M1, in_map_iff; exists 0%nat; split; [reflexivity|apply in_seq; lia]). lra.
    + apply in_map_iff in Hx as (i & <- & Hi). apply in_seq in Hi. destruct (fold_right_max (map Qabs (map (u i) (seq 0 k)))) as (_ & _ & [R2|(z & Hz & R2)]).
      * exists i, 0%nat. split; [lia|]. split; [exact Hk|]. rewrite HR by lia. rewrite M2. unfold row. apply Qle_antisym; [rewrite R2; apply Qabs_nonneg|apply (Hrow i 0%nat Hk)].
      * rewrite map_map in Hz. apply in_map_iff in Hz as (c & <- & Hc). apply in_seq in Hc. exists i, c. split; [lia|]. split; [lia|]. rewrite HR by lia. rewrite M2. exact R2.
Qed.

(* ---- the rounds *)
Section Rounds.
Variables (argmax : list Q -> Z) (n k : nat) (E : list edge) (strength : nat -> nat -> Q).
Hypothesis Hargmax : argmax_ok argmax.
Hypothesis HE : in_range n E.
Hypothesis HW : forall i j, (i < n)%nat -> (j < n)%nat -> weight_from E i j == strength i j.
Hypothesis Hn : (0 < n)%nat.
Hypothesis Hk : (0 < k)%nat.
Lemma degree_total i : (i < n)%nat -> degree E (Z.of_nat i) == total n strength i.
Proof using All. intros Hi. rewrite <- (weight_total E n i HE). apply over_ext. intros j Hj. apply HW; assumption. Qed.
Lemma laplacian_excess U i c : (i < n)%nat -> (c < k)%nat -> entry (mbo_laplacian n k E U) i c == excess n strength (entry U) i c.
Proof using All.
  intros Hi Hc. unfold mbo_laplacian. cbv zeta. rewrite entry_tabulate by assumption. rewrite spmm_entry by assumption. rewrite (degree_total i Hi).
  assert (HA : arriving E e_w (entry U) i c == over_nodes n (fun j => strength i j * entry U j c)).
  { transitivity (arriving E e_w (fun j _ => entry U j c) i 0); [reflexivity|]. rewrite <- (weight_sum E (fun j => entry U j c) n i HE). apply over_ext. intros j Hj. rewrite (HW i j Hi Hj). reflexivity. }
  rewrite HA. unfold excess, total, over_nodes. rewrite (Qsum_ext (fun j => strength i j * (entry U i c - entry U j c)) (fun j => strength i j * entry U i c - strength i j * entry U j c)) by (intros; ring).
  rewrite Qsum_minus, Qsum_scale_r. reflexivity.
Qed.
Variable src : nat -> nat -> Q.
Variable B : mat.
Hypothesis HB : forall i c, (i < n)%nat -> (c < k)%nat -> entry B i c == src i c.
Lemma poisson_step_round s : let s' := poisson_step n k E B s in
  agree n k (entry (fst s')) (poisson_round n strength src (entry (fst s))) /\ exists r, snd s' = Some r /\ largest_change n k (entry (fst s')) (entry (fst s)) r.
Proof using All.
  cbv zeta. unfold poisson_step. cbv zeta. cbn [fst snd]. split.
  - intros i c Hi Hc. rewrite !entry_tabulate by assumption. rewrite (laplacian_excess (fst s) i c Hi Hc), (HB i c Hi Hc). unfold poisson_round. assert (Hd := degree_total i Hi).
    destruct (Qle_bool (degree E (Z.of_nat i)) 0) eqn:E1; destruct (Qle_bool (total n strength i) 0) eqn:E2.
    + lra.
    + apply Qle_bool_iff in E1. rewrite Hd in E1. apply Qle_bool_iff in E1. congruence.
    + apply Qle_bool_iff in E2. rewrite <- Hd in E2. apply Qle_bool_iff in E2. congruence.
    + rewrite Hd. unfold Qdiv. ring.
  - eexists. split; [reflexivity|]. apply max_abs_largest; [exact Hn|exact Hk|]. intros i c Hi Hc. rewrite !entry_tabulate by assumption. reflexivity.
Qed.
Variables dt mu : Q.
Lemma inner_step_round s : let s' := inner_step n k E B dt mu s in
  agree n k (entry (fst s')) (inner_round n strength src dt mu (entry (fst s))) /\ exists r, snd s' = Some r /\ largest_change n k (entry (fst s')) (entry (fst s)) r.
Proof using All.
  cbv zeta. unfold inner_step. cbv zeta. cbn [fst snd]. split.
  - intros i c Hi Hc. rewrite !entry_tabulate by assumption. rewrite (laplacian_excess (fst s) i c Hi Hc), (HB i c Hi Hc). unfold inner_round. ring.
  - eexists. split; [reflexivity|]. apply max_abs_largest; [exact Hn|exact Hk|]. intros i c Hi Hc. rewrite !entry_tabulate by assumption. reflexivity.
Qed.
Lemma proj_winners U : shape n k U -> exists w, winners n k (entry U) w /\ shape n k (proj_vertices argmax U) /\
  forall i c, (i < n)%nat -> (c < k)%nat -> entry (proj_vertices argmax U) i c = if Nat.eqb (w i) c then 1 else 0.
Proof using All.
  intros HU. exists (fun i => Z.to_nat (argmax (nth i U []))). assert (Hrow : forall i, (i < n)%nat -> length (nth i U []) = k) by (intros i Hi; apply (shape_row n k U i HU Hi)).
  assert (HM : forall i, (i < n)%nat -> most_likely (nth i U []) (argmax (nth i U []))) by (intros i Hi; apply Hargmax; intros Hc; specialize (Hrow i Hi); rewrite Hc in Hrow; cbn in Hrow; lia).
  split; [|split].
  - intros i Hi. destruct (HM i Hi) as [H1 H2]. unfold lenZ in H1. rewrite (Hrow i Hi) in *. split; [lia|]. intros c Hc. apply H2, Hc.
  - destruct HU as [HU1 HU2]. split; [unfold proj_vertices; rewrite map_length; exact HU1|]. intros r Hr. apply in_map_iff in Hr as (q & <- & Hq). rewrite map_length, seq_length. apply HU2, Hq.
  - intros i c Hi Hc. unfold entry, proj_vertices. rewrite nth_map_in with (da := []) by (rewrite (proj1 HU); exact Hi). rewrite (Hrow i Hi). rewrite nth_map_in with (da := 0%nat) by (rewrite seq_length; exact Hc). rewrite seq_nth by exact Hc. cbn [Nat.add].
    destruct (HM i Hi) as [H1 _]. destruct (Z.eqb_spec (argmax (nth i U [])) (Z.of_nat c)); destruct (Nat.eqb_spec (Z.to_nat (argmax (nth i U []))) c); lia || reflexivity.
Qed.
Variables (prior : nat -> Q) (b : list Q) (dtau smin smax : Q).
Hypothesis Hb : forall c, (c < k)%nat -> nth c b 0 == prior c.
Lemma volume_rounds U : let s m := Nat.iter m (volume_step argmax n k U b dtau smin smax) (map (fun _ => 1) (seq 0 k)) in
  volume_run n k (entry U) prior dtau smin smax (fun m c => nth c (s m) 0).
Proof using All.
  cbv zeta. split.
  - intros c Hc. change (nth c (map (fun _ : nat => 1) (seq 0 k)) 0 == 1). rewrite nth_map_in with (da := 0%nat) by (rewrite seq_length; exact Hc). reflexivity.
  - intros m. rewrite iter_S. set (s := Nat.iter m _ _). destruct (proj_winners (scale_columns n k U s) (shape_tabulate _ _ _)) as (w & Hw & HV & HE').
    exists w. split.
    + intros i Hi. destruct (Hw i Hi) as [W1 W2]. split; [exact W1|]. intros c Hc. specialize (W2 c Hc). unfold scale_columns in W2. rewrite !entry_tabulate in W2 by assumption. exact W2.
    + intros c Hc. unfold volume_step. cbv zeta. rewrite nth_map_in with (da := 0%nat) by (rewrite seq_length; exact Hc). rewrite seq_nth by exact Hc. cbn [Nat.add].
      assert (HQ : Qmean (column n (proj_vertices argmax (scale_columns n k U s)) c) == won n w c).
      { unfold Qmean, won, lenZ. rewrite column_length. unfold column, over_nodes. rewrite (Qsum_ext _ (fun i => if Nat.eqb (w i) c then 1 else 0)); [reflexivity|]. intros i Hi. apply in_seq in Hi. rewrite HE' by lia. reflexivity. }
      rewrite HQ, (Hb c Hc). reflexivity.
Qed.
Variable sp : mbo_spec.
Hypothesis Hsp : mb_mu sp = mu /\ mb_dtau sp = dtau /\ mb_smin sp = smin /\ mb_smax sp = smax.
Lemma outer_step_round st : shape n k (fst st) ->
  let st' := outer_step argmax n k E B b dt sp st in
  shape n k (fst st') /\ (snd st' = if (0 <? mb_inner sp)%Z then snd st' else snd st) /\
  exists r, outer_round n k strength src prior dt mu dtau smin smax (Z.to_nat (mb_inner sp)) (Z.to_nat (mb_volume sp)) (entry (fst st)) (entry (fst st')) r /\
    ((0 < mb_inner sp)%Z -> snd st' = Some r).
Proof using All.
  intros HS. cbv zeta. unfold outer_step. cbv zeta. destruct Hsp as (-> & -> & -> & ->). set (X := fun m => Nat.iter m (inner_step n k E B dt mu) st). change (Nat.iter (Z.to_nat (mb_inner sp)) (inner_step n k E B dt mu) st) with (X (Z.to_nat (mb_inner sp))).
  set (N := Z.to_nat (mb_inner sp)). cbn [fst snd].
  set (s := fun m => Nat.iter m (volume_step argmax n k (fst (X N)) b dtau smin smax) (map (fun _ => 1) (seq 0 k))). change (Nat.iter (Z.to_nat (mb_volume sp)) _ _) with (s (Z.to_nat (mb_volume sp))).
  destruct (proj_winners (scale_columns n k (fst (X N)) (s (Z.to_nat (mb_volume sp)))) (shape_tabulate _ _ _)) as (w & Hw & HV & HE'). split; [exact HV|].
  assert (HXS : forall m, X (S m) = inner_step n k E B dt mu (X m)) by (intros m; unfold X; apply iter_S).
  assert (HR : (0 < mb_inner sp)%Z -> exists r, snd (X N) = Some r /\ largest_change n k (entry (fst (X N))) (entry (fst (X (N - 1)%nat))) r).
  { intros Hp. assert (HN : S (N - 1) = N) by (unfold N; lia). assert (HXN := HXS (N - 1)%nat). rewrite HN in HXN. rewrite HXN. apply inner_step_round. }
  split; [destruct (Z.ltb_spec 0 (mb_inner sp)) as [Hp|Hp]; [reflexivity|]; unfold N; replace (Z.to_nat (mb_inner sp)) with 0%nat by lia; reflexivity|].
  assert (HO : forall r, ((0 < N)%nat -> largest_change n k (entry (fst (X N))) (entry (fst (X (N - 1)%nat))) r) ->
    outer_round n k strength src prior dt mu dtau smin smax N (Z.to_nat (mb_volume sp)) (entry (fst st)) (entry (proj_vertices argmax (scale_columns n k (fst (X N)) (s (Z.to_nat (mb_volume sp)))))) r).
  { intros r Hr. exists (fun m => entry (fst (X m))), (fun m c => nth c (s m) 0), w. split; [intros i c Hi Hc; reflexivity|]. split; [intros m; rewrite HXS; apply inner_step_round|]. split; [apply volume_rounds|].
    split; [|split; [intros i c Hi Hc; rewrite (HE' i c Hi Hc); reflexivity|exact Hr]].
    intros i Hi. destruct (Hw i Hi) as [W1 W2]. split; [exact W1|]. intros c Hc. specialize (W2 c Hc). unfold scale_columns in W2. rewrite !entry_tabulate in W2 by assumption. exact W2. }
  destruct (Z.ltb_spec 0 (mb_inner sp)) as [Hp|Hp].
  - destruct (HR Hp) as (r & Hr1 & Hr2). exists r. split; [apply HO; intros _; exact Hr2|intros _; exact Hr1].
  - exists 0. split; [apply HO; unfold N; lia|lia].
Qed.
End Rounds.

(* ---- the run *)
Lemma max_valid l : l <> [] -> (forall v, In v l -> (0 <= v)%Z) -> In (fold_right Z.max 0%Z l) l /\ (0 <= fold_right Z.max 0%Z l)%Z /\ forall v, In v l -> (v <= fold_right Z.max 0%Z l)%Z.
Proof.
  induction l as [|a l IH]; [congruence|]. intros _ H. cbn [fold_right]. pose proof (H a (or_introl eq_refl)). destruct l as [|b l].
  - cbn [fold_right]. split; [left; lia|]. split; [lia|]. intros v [<-|[]]. lia.
  - destruct IH as (H1 & H2 & H3); [discriminate|intros v Hv; apply H; right; exact Hv|]. set (m := fold_right Z.max 0%Z (b :: l)) in *. split; [destruct (Z.max_spec a m) as [[_ ->]|[_ ->]]; [right; exact H1|left; reflexivity]|]. split; [lia|].
    intros v [<-|Hv]; [lia|]. specialize (H3 v Hv). lia.
Qed.
Lemma valid_range y : filter (fun v => (v >=? 0)%Z) y <> [] -> class_range y (Z.to_nat (fold_right Z.max 0 (filter (fun v => v >=? 0) y) + 1)%Z).
Proof.
  intros H. destruct (max_valid _ H) as (H1 & H2 & H3); [intros v Hv; apply filter_In in Hv as [_ Hv]; lia|]. set (m := fold_right Z.max 0%Z (filter (fun v => (v >=? 0)%Z) y)) in *. split; [lia|]. split.
  - intros v Hv. destruct (Z.neg_nonneg_cases v) as [|Hp]; [lia|]. specialize (H3 v). rewrite filter_In in H3. specialize (H3 ltac:(split; [exact Hv|lia])). lia.
  - right. apply filter_In in H1 as [H1 _]. replace (Z.of_nat (Z.to_nat (m + 1)) - 1)%Z with m by lia. exact H1.
Qed.
Lemma share_positive n y mask c : length mask = n -> length y = n -> (0 < class_share n y mask c <-> exists i, nth i mask false = true /\ nth i y (-1)%Z = Z.of_nat c).
Proof.
  intros Hm Hy. unfold class_share. assert (HT : forall i, target y mask i c == if nth i mask false && (nth i y (-1) =? Z.of_nat c)%Z then 1 else 0) by reflexivity. split.
  - intros H. destruct (existsb (fun i => nth i mask false && (nth i y (-1) =? Z.of_nat c)%Z) (seq 0 n)) eqn:E.
    + apply existsb_exists in E as (i & _ & E). apply andb_true_iff in E as [E1 E2]. exists i. split; [exact E1|lia].
    + exfalso. rewrite (Qsum_zero (fun i => target y mask i c)) in H; [unfold Qdiv in H; lra|]. intros i Hi. apply labelled_In in Hi as [Hi _]. unfold target. destruct (nth i mask false && (nth i y (-1) =? Z.of_nat c)%Z) eqn:E1; [|reflexivity].
      assert (existsb (fun i => nth i mask false && (nth i y (-1) =? Z.of_nat c)%Z) (seq 0 n) = true) by (apply existsb_exists; exists i; split; [apply in_seq; lia|exact E1]). congruence.
  - intros (i & Hi & Hc). assert (Hin : (i < n)%nat) by (destruct (Nat.lt_ge_cases i n) as [|Hge]; [assumption|]; rewrite nth_overflow in Hi by lia; discriminate).
    assert (HI : In i (labelled_nodes n mask)) by (apply labelled_In; auto). assert (Hp := nodes_pos n mask (ex_intro _ i (conj Hin Hi))).
    apply Qlt_shift_div_l; [exact Hp|]. rewrite Qmult_0_l. assert (H0 : forall x, In x (map (fun i => target y mask i c) (labelled_nodes n mask)) -> 0 <= x) by (intros x Hx; apply in_map_iff in Hx as (j & <- & _); unfold target; destruct (_ && _); lra).
    assert (Hnn := Qsum_nonneg _ H0). apply Qnot_le_lt. intros Hle. assert (Hz := Qsum_zero_inv _ H0 ltac:(lra) (target y mask i c) ltac:(apply in_map_iff; eauto)). unfold target in Hz. rewrite Hi, Hc, Z.eqb_refl in Hz. cbn in Hz. lra.
Qed.
Lemma count_valid c y : (0 <= c)%Z -> countZ c (filter (fun v => (v >=? 0)%Z) y) = countZ c y.
Proof.
  intros Hc. unfold countZ. f_equal. induction y as [|v y IH]; [reflexivity|]. cbn [filter]. destruct (v >=? 0)%Z eqn:E; cbn [count_occ]; rewrite IH; [reflexivity|]. destruct (Z.eq_dec v c); [lia|reflexivity].
Qed.
Definition good_prior (k : nat) (sp : mbo_spec) : Prop := match mb_b sp with None => True | Some b => length b = k /\ (forall x, In x b -> 0 <= x) /\ 0 < Qsum b end.
Lemma chosen_ok n k y mask sp ybar : (forall c, (c < k)%nat -> nth c ybar 0 = class_share n y mask c) ->
  (forall b, chosen_b y k sp ybar = Ok b -> good_prior k sp /\ forall c, (c < k)%nat -> nth c b 0 == aimed n k y mask (mb_b sp) (mb_strategy sp) c) /\
  (good_prior k sp -> exists b, chosen_b y k sp ybar = Ok b).
Proof.
  intros Hbar. unfold chosen_b, good_prior, aimed. destruct (mb_b sp) as [g|].
  - destruct (Nat.eqb_spec (length g) k) as [Hl|Hl]; cbn [negb]; [|split; [discriminate|intros (H & _); contradiction]].
    destruct (existsb _ g) eqn:E1; [split; [discriminate|]|]. { intros (_ & H & _). apply existsb_exists in E1 as (x & Hx & E1). specialize (H x Hx). apply Qle_bool_iff in H. rewrite H in E1. discriminate. }
    assert (Hnn : forall x, In x g -> 0 <= x). { intros x Hx. apply Qle_bool_iff. destruct (Qle_bool 0 x) eqn:E; [reflexivity|]. assert (existsb (fun x => negb (Qle_bool 0 x)) g = true) by (apply existsb_exists; exists x; rewrite E; auto). congruence. }
    destruct (Qle_bool (Qsum g) 0) eqn:E2; [split; [discriminate|]; intros (_ & _ & H); apply Qle_bool_iff in E2; lra|].
    assert (Hs : 0 < Qsum g) by (apply Qnot_le_lt; intros Hc; apply Qle_bool_iff in Hc; congruence).
    split; [|intros _; eauto]. intros b [= <-]. split; [auto|]. intros c Hc. rewrite nth_map_in with (da := 0) by lia. reflexivity.
  - split; [|intros _; eauto]. intros b [= <-]. split; [exact I|]. intros c Hc. unfold b_prior. destruct (mb_strategy sp).
    + rewrite nth_map_in with (da := 0%nat) by (rewrite seq_length; exact Hc). reflexivity.
    + rewrite Hbar by exact Hc. reflexivity.
    + cbv zeta. rewrite nth_map_in with (da := 0%nat) by (rewrite seq_length; exact Hc). rewrite seq_nth by exact Hc. cbn [Nat.add]. rewrite count_valid by lia.
      rewrite (filter_ext (fun v => (v >=? 0)%Z) (fun v => (0 <=? v)%Z)) by (intros; lia). reflexivity.
Qed.
Section Run.
Variable argmax : list Q -> Z.
Hypothesis Hargmax : argmax_ok argmax.
Lemma mbo_iter_outer n k E B b dt sp U r0 m : let st := Nat.iter m (outer_step argmax n k E B b dt sp) (U, r0) in snd st = if (0 <? mb_inner sp)%Z then snd st else r0.
Proof.
  cbv zeta. destruct (Z.ltb_spec 0 (mb_inner sp)) as [|Hp]; [reflexivity|]. induction m as [|m IH]; [reflexivity|]. rewrite iter_S. set (st := Nat.iter m _ _) in *. unfold outer_step. cbv zeta. cbn [snd]. replace (Z.to_nat (mb_inner sp)) with 0%nat by lia. exact IH.
Qed.
Lemma mbo_ok n ei weight y mask sp d : poisson_mbo argmax n ei weight y mask sp = Ok d ->
  exists E k md P O r, validate_graph n ei weight = Ok E /\ length y = Z.to_nat n /\ length mask = Z.to_nat n /\ class_range y k /\
    (forall c, (c < k)%nat -> exists i, nth i mask false = true /\ nth i y (-1)%Z = Z.of_nat c) /\ good_prior k sp /\
    let S := mbo_weight (mb_symmetrize sp) (mb_zero_diagonal sp) E in
    largest_of (Z.to_nat n) (total (Z.to_nat n) S) md /\ 0 < md /\
    mbo_rounds (Z.to_nat n) k S (source true (Z.to_nat n) y mask) (aimed (Z.to_nat n) k y mask (mb_b sp) (mb_strategy sp)) (class_share (Z.to_nat n) y mask)
      (1 / md) (mb_mu sp) (mb_dtau sp) (mb_smin sp) (mb_smax sp) (Z.to_nat (mb_T sp)) (Z.to_nat (mb_inner sp)) (Z.to_nat (mb_volume sp)) P O r /\
    shape (Z.to_nat n) k (d_F d) /\ agree (Z.to_nat n) k (entry (d_F d)) (O (Z.to_nat (mb_outer sp))) /\ d_iter d = (mb_T sp + mb_outer sp * mb_inner sp)%Z /\
    (if (0 <? mb_inner sp)%Z && (0 <? mb_outer sp)%Z then d_residual d = Some (r (Z.to_nat (mb_outer sp)))
     else match d_residual d with
          | None => (mb_T sp <= 0)%Z
          | Some q => (0 < mb_T sp)%Z /\ largest_change (Z.to_nat n) k (P (Z.to_nat (mb_T sp))) (P (Z.to_nat (mb_T sp) - 1)%nat) q
          end).
Proof using All.
  intros H. unfold poisson_mbo in H. inv_bind H. rename a into E0. rename E into HV. destruct (validate_graph_ok _ _ _ _ HV) as (Hn & HE & _).
  destruct (negb (lenZ y =? n)%Z) eqn:E1; [discriminate|]. destruct (negb (lenZ mask =? n)%Z) eqn:E2; [discriminate|]. assert (Hy : length y = Z.to_nat n) by (unfold lenZ in *; lia). assert (Hm : length mask = Z.to_nat n) by (unfold lenZ in *; lia).
  assert (Hval : filter (fun v => (v >=? 0)%Z) y <> []) by (intros Hc; rewrite Hc in H; discriminate). assert (HCR := valid_range y Hval).
  set (kz := (fold_right Z.max 0 (filter (fun v => (v >=? 0)%Z) y) + 1)%Z) in *.
  assert (H' : (do Y <- labels_to_onehot y kz;
    let Y := zero_unlabelled mask Y in let nn := Z.to_nat n in let k := Z.to_nat kz in
    if negb (existsb (fun b => b) mask) then Err ValueError
    else let ybar := y_bar nn k Y mask in
      if existsb (fun x => Qle_bool x 0) ybar then Err ValueError
      else let B := b_matrix nn k Y mask ybar in
        do b <- chosen_b y k sp ybar;
        let E := mbo_edges (mb_symmetrize sp) (mb_zero_diagonal sp) E0 in
        let max_deg := fold_right Qmax 0 (map (fun i => degree E (Z.of_nat i)) (seq 0 nn)) in
        if Qle_bool max_deg 0 then Err ValueError
        else
          let st := Nat.iter (Z.to_nat (mb_T sp)) (poisson_step nn k E B) (tabulate nn k (fun _ _ => 0), None) in
          let U := tabulate nn k (fun i c => entry (fst st) i c * (nth c b 0 / nth c ybar 0)) in
          let st := Nat.iter (Z.to_nat (mb_outer sp)) (outer_step argmax nn k E B b (1 / max_deg) sp) (U, snd st) in
          Ok {| d_F := fst st; d_iter := (mb_T sp + mb_outer sp * mb_inner sp)%Z; d_residual := snd st |}) = Ok d).
  { unfold kz. destruct (filter (fun v => (v >=? 0)%Z) y); [congruence|]. exact H. }
  clear H. rename H' into H. inv_bind H. apply onehot_ok in E as (Hkz & Hlt & ->). cbv zeta in H. set (nn := Z.to_nat n) in *. set (k := Z.to_nat kz) in *. assert (Hk : (0 < k)%nat) by lia. assert (Hnn : (0 < nn)%nat) by lia.
  destruct (negb (existsb _ mask)); [discriminate|]. set (Y := zero_unlabelled mask (map (onehot_row k) y)) in *.
  assert (HT : forall i c, (i < nn)%nat -> (c < k)%nat -> entry Y i c = target y mask i c) by (intros i c Hi Hc; apply label_entry; congruence || lia).
  assert (Hbar : forall c, (c < k)%nat -> nth c (y_bar nn k Y mask) 0 = class_share nn y mask c).
  { intros c Hc. unfold y_bar. rewrite nth_map_in with (da := 0%nat) by (rewrite seq_length; exact Hc). rewrite seq_nth by exact Hc. cbn [Nat.add]. apply share_mean; [exact Hm|]. intros i Hi. apply HT; assumption. }
  destruct (existsb (fun x => Qle_bool x 0) (y_bar nn k Y mask)) eqn:E3; [discriminate|].
  assert (Hpos : forall c, (c < k)%nat -> 0 < class_share nn y mask c).
  { intros c Hc. apply Qnot_le_lt. intros Hle. rewrite <- (Hbar c Hc) in Hle. apply Qle_bool_iff in Hle. assert (existsb (fun x => Qle_bool x 0) (y_bar nn k Y mask) = true); [|congruence]. apply existsb_exists. eexists. split; [|exact Hle]. apply nth_In. unfold y_bar. rewrite map_length, seq_length. exact Hc. }
  set (B := b_matrix nn k Y mask (y_bar nn k Y mask)) in *.
  assert (HB : forall i c, (i < nn)%nat -> (c < k)%nat -> entry B i c == source true nn y mask i c).
  { intros i c Hi Hc. unfold B, b_matrix. rewrite entry_tabulate by assumption. rewrite (HT i c Hi Hc), (Hbar c Hc). unfold source. destruct (nth i mask false); reflexivity. }
  inv_bind H. rename a into b. destruct (proj1 (chosen_ok nn k y mask sp _ Hbar) b E) as (Hgp & Hb).
  set (E' := mbo_edges (mb_symmetrize sp) (mb_zero_diagonal sp) E0) in *. set (St := mbo_weight (mb_symmetrize sp) (mb_zero_diagonal sp) E0).
  assert (HE' : in_range nn E') by (apply mbo_edges_range, HE). assert (HW : forall i j, (i < nn)%nat -> (j < nn)%nat -> weight_from E' i j == St i j) by (intros; apply mbo_edges_weight).
  set (md := fold_right Qmax 0 (map (fun i => degree E' (Z.of_nat i)) (seq 0 nn))) in *. destruct (Qle_bool md 0) eqn:E4; [discriminate|]. assert (Hmd : 0 < md) by (apply Qnot_le_lt; intros Hc; apply Qle_bool_iff in Hc; congruence).
  assert (HL : largest_of nn (total nn St) md).
  { destruct (fold_right_max (map (fun i => degree E' (Z.of_nat i)) (seq 0 nn))) as (M0 & M1 & M2). fold md in M0, M1, M2. split.
    - intros i Hi. rewrite <- (degree_total argmax nn k E' St Hargmax HE' HW Hnn Hk i Hi). apply M1, in_map_iff. exists i. split; [reflexivity|apply in_seq; lia].
    - destruct M2 as [M2|(x & Hx & M2)]; [lra|]. apply in_map_iff in Hx as (i & <- & Hi). apply in_seq in Hi. exists i. split; [lia|]. rewrite M2. apply (degree_total argmax nn k E' St Hargmax HE' HW Hnn Hk). lia. }
  set (Pst := fun m => Nat.iter m (poisson_step nn k E' B) (tabulate nn k (fun _ _ => 0), None)) in *. change (Nat.iter (Z.to_nat (mb_T sp)) _ (tabulate nn k (fun _ _ => 0), None)) with (Pst (Z.to_nat (mb_T sp))) in H.
  set (U := tabulate nn k (fun i c => entry (fst (Pst (Z.to_nat (mb_T sp)))) i c * (nth c b 0 / nth c (y_bar nn k Y mask) 0))) in *.
  set (Ost := fun m => Nat.iter m (outer_step argmax nn k E' B b (1 / md) sp) (U, snd (Pst (Z.to_nat (mb_T sp))))) in *. change (Nat.iter (Z.to_nat (mb_outer sp)) _ (U, _)) with (Ost (Z.to_nat (mb_outer sp))) in H.
  assert (HPS : forall m, Pst (S m) = poisson_step nn k E' B (Pst m)) by (intros; unfold Pst; apply iter_S). assert (HOS : forall m, Ost (S m) = outer_step argmax nn k E' B b (1 / md) sp (Ost m)) by (intros; unfold Ost; apply iter_S).
  assert (Hsh : forall m, shape nn k (fst (Ost m))).
  { induction m as [|m IH]; [apply shape_tabulate|]. rewrite HOS. eapply (outer_step_round argmax nn k E' St Hargmax HE' HW Hnn Hk (source true nn y mask) B HB (1 / md) (mb_mu sp) (aimed nn k y mask (mb_b sp) (mb_strategy sp)) b (mb_dtau sp) (mb_smin sp) (mb_smax sp) Hb sp); auto. }
  assert (HOR : forall m, exists r, outer_round nn k St (source true nn y mask) (aimed nn k y mask (mb_b sp) (mb_strategy sp)) (1 / md) (mb_mu sp) (mb_dtau sp) (mb_smin sp) (mb_smax sp) (Z.to_nat (mb_inner sp)) (Z.to_nat (mb_volume sp)) (entry (fst (Ost m))) (entry (fst (Ost (S m)))) r /\ ((0 < mb_inner sp)%Z -> snd (Ost (S m)) = Some r)).
  { intros m. rewrite HOS. destruct (outer_step_round argmax nn k E' St Hargmax HE' HW Hnn Hk (source true nn y mask) B HB (1 / md) (mb_mu sp) (aimed nn k y mask (mb_b sp) (mb_strategy sp)) b (mb_dtau sp) (mb_smin sp) (mb_smax sp) Hb sp ltac:(auto) (Ost m) (Hsh m)) as (_ & _ & r & Hr). exists r. exact Hr. }
  set (rr := fun m => match m with O => 0 | S m' => match snd (Ost m) with Some q => q | None => 0 end end).
  exists E0, k, md, (fun m => entry (fst (Pst m))), (fun m => entry (fst (Ost m))), rr.
  split; [exact HV|]. split; [exact Hy|]. split; [exact Hm|]. split; [exact HCR|]. split; [intros c Hc; apply (share_positive nn y mask c Hm Hy), Hpos, Hc|]. split; [exact Hgp|]. cbv zeta. fold St. split; [exact HL|]. split; [exact Hmd|].
  assert (HPR := poisson_step_round argmax nn k E' St Hargmax HE' HW Hnn Hk (source true nn y mask) B HB). cbv zeta in HPR.
  injection H as <-. cbn [d_F d_iter d_residual]. split; [|split; [apply Hsh|split; [intros i c Hi Hc; reflexivity|split; [reflexivity|]]]].
  - split; [intros i c Hi Hc; change (entry (tabulate nn k (fun _ _ => 0)) i c == 0); rewrite entry_tabulate by assumption; reflexivity|]. split; [intros m; rewrite HPS; apply HPR|]. split.
    + intros i c Hi Hc. change (fst (Ost 0%nat)) with U. unfold U. rewrite entry_tabulate by assumption. rewrite (Hbar c Hc), (Hb c Hc). reflexivity.
    + intros m. destruct (HOR m) as (r & Hr1 & Hr2). destruct (Z.ltb_spec 0 (mb_inner sp)) as [Hp|Hp].
      * unfold rr. rewrite (Hr2 Hp). exact Hr1.
      * destruct Hr1 as (X & s & w & A1 & A2 & A3 & A4 & A5 & A6). exists X, s, w. do 5 (split; [assumption|]). intros; lia.
  - destruct (Z.ltb_spec 0 (mb_inner sp)) as [Hp|Hp]; cbn [andb].
    + destruct (Z.ltb_spec 0 (mb_outer sp)) as [Ho|Ho].
      * unfold rr. destruct (Z.to_nat (mb_outer sp)) as [|mm] eqn:Em; [lia|]. destruct (HOR mm) as (r & _ & Hr2). rewrite (Hr2 Hp). reflexivity.
      * replace (Z.to_nat (mb_outer sp)) with 0%nat by lia. change (snd (Ost 0%nat)) with (snd (Pst (Z.to_nat (mb_T sp)))). destruct (Z.to_nat (mb_T sp)) as [|t] eqn:Et; [change (mb_T sp <= 0)%Z; lia|].
        rewrite HPS. destruct (HPR (Pst t)) as (_ & r & Hr1 & Hr2). rewrite Hr1. split; [lia|]. replace (S t - 1)%nat with t by lia. exact Hr2.
    + assert (Hs : snd (Ost (Z.to_nat (mb_outer sp))) = snd (Pst (Z.to_nat (mb_T sp)))).
      { unfold Ost. rewrite mbo_iter_outer. destruct (Z.ltb_spec 0 (mb_inner sp)); [lia|reflexivity]. }
      rewrite Hs. destruct (Z.to_nat (mb_T sp)) as [|t] eqn:Et; [change (mb_T sp <= 0)%Z; lia|].
      rewrite HPS. destruct (HPR (Pst t)) as (_ & r & Hr1 & Hr2). rewrite Hr1. split; [lia|]. replace (S t - 1)%nat with t by lia. exact Hr2.
Qed.

Lemma mbo_accepts n ei weight y mask sp E k : validate_graph n ei weight = Ok E -> length y = Z.to_nat n -> length mask = Z.to_nat n -> class_range y k ->
  (forall c, (c < k)%nat -> exists i, nth i mask false = true /\ nth i y (-1)%Z = Z.of_nat c) -> good_prior k sp ->
  (exists i, (i < Z.to_nat n)%nat /\ 0 < total (Z.to_nat n) (mbo_weight (mb_symmetrize sp) (mb_zero_diagonal sp) E) i) ->
  exists d, poisson_mbo argmax n ei weight y mask sp = Ok d.
Proof using All.
  intros HV Hy Hm HC Hsh Hgp (i0 & Hi0 & Ht). destruct (validate_graph_ok _ _ _ _ HV) as (Hn & HE & _). unfold poisson_mbo. rewrite HV. cbn [bind]. unfold lenZ. destruct (negb (Z.of_nat (length y) =? n)%Z) eqn:E1; [lia|]. destruct (negb (Z.of_nat (length mask) =? n)%Z) eqn:E2; [lia|].
  assert (Hk1 : (1 <= k)%nat) by apply HC. destruct (Hsh 0%nat ltac:(lia)) as (i & Hi & Hyi).
  assert (Hin : (i < length y)%nat) by (destruct (Nat.lt_ge_cases i (length y)) as [|Hge]; [assumption|]; rewrite nth_overflow in Hi by lia; discriminate).
  assert (Hval : filter (fun v => (v >=? 0)%Z) y <> []).
  { intros Hc. assert (HI : In (nth i y (-1)%Z) (filter (fun v => (v >=? 0)%Z) y)) by (apply filter_In; split; [apply nth_In, Hin|lia]). rewrite Hc in HI. destruct HI. }
  assert (HCR := valid_range y Hval). rewrite (class_range_unique _ _ _ HC HCR) in *. clear HC. destruct (max_valid _ Hval) as (_ & Hm0 & _); [intros v Hv; apply filter_In in Hv as [_ Hv]; lia|].
  set (kz := (fold_right Z.max 0 (filter (fun v => v >=? 0) y) + 1)%Z) in *.
  assert (Hmain : forall cont, (exists d, cont = Ok d) -> (exists d, match filter (fun v => (v >=? 0)%Z) y with [] => Err ValueError | _ => cont end = Ok d :> result diffusion)) by (intros cont Hc; destruct (filter (fun v => (v >=? 0)%Z) y); [congruence|exact Hc]).
  assert (Hkz : match filter (fun v => (v >=? 0)%Z) y with [] => 0%Z | valid => (fold_right Z.max 0 valid + 1)%Z end = kz) by (unfold kz; destruct (filter (fun v => (v >=? 0)%Z) y); [congruence|reflexivity]).
  unfold kz in Hkz. destruct (filter (fun v => (v >=? 0)%Z) y) as [|v0 vs] eqn:Ef; [congruence|]. clear Hmain Hkz Hval. fold kz.
  rewrite onehot_iff; [|lia|intros v Hv; destruct HCR as (_ & HCR & _); specialize (HCR v Hv); lia]. cbn [bind]. cbv zeta. assert (Hsome : existsb (fun b : bool => b) mask = true) by (apply some_labelled; eauto). rewrite Hsome. cbn [negb].
  set (nn := Z.to_nat n) in *. set (k' := Z.to_nat kz) in *. set (Y := zero_unlabelled mask (map (onehot_row k') y)).
  assert (HT : forall i c, (i < nn)%nat -> (c < k')%nat -> entry Y i c = target y mask i c) by (intros j c Hj Hc; apply label_entry; congruence || lia).
  assert (Hbar : forall c, (c < k')%nat -> nth c (y_bar nn k' Y mask) 0 = class_share nn y mask c).
  { intros c Hc. unfold y_bar. rewrite nth_map_in with (da := 0%nat) by (rewrite seq_length; exact Hc). rewrite seq_nth by exact Hc. cbn [Nat.add]. apply share_mean; [exact Hm|]. intros j Hj. apply HT; assumption. }
  destruct (existsb (fun x => Qle_bool x 0) (y_bar nn k' Y mask)) eqn:E3.
  { exfalso. apply existsb_exists in E3 as (x & Hx & E3). apply Qle_bool_iff in E3. apply (In_nth _ _ 0) in Hx as (c & Hc & Ex). unfold y_bar in Hc. rewrite map_length, seq_length in Hc. rewrite (Hbar c Hc) in Ex. subst x.
    assert (Hp := proj2 (share_positive nn y mask c Hm Hy) (Hsh c Hc)). lra. }
  destruct (proj2 (chosen_ok nn k' y mask sp _ Hbar) Hgp) as (b & Eb). rewrite Eb. cbn [bind].
  destruct (Qle_bool (fold_right Qmax 0 _) 0) eqn:E4; [|eauto]. exfalso. apply Qle_bool_iff in E4.
  assert (HE' : in_range nn (mbo_edges (mb_symmetrize sp) (mb_zero_diagonal sp) E)) by (apply mbo_edges_range, HE).
  assert (HD := degree_total argmax nn k' (mbo_edges (mb_symmetrize sp) (mb_zero_diagonal sp) E) _ Hargmax HE' (fun i j _ _ => mbo_edges_weight _ _ E i j) ltac:(lia) ltac:(lia) i0 Hi0).
  rewrite <- HD in Ht. destruct (fold_right_max (map (fun i => degree (mbo_edges (mb_symmetrize sp) (mb_zero_diagonal sp) E) (Z.of_nat i)) (seq 0 nn))) as (_ & M1 & _). specialize (M1 _ ltac:(apply in_map_iff; exists i0; split; [reflexivity|apply in_seq; lia])). lra.
Qed.
Lemma mbo_hidden n ei weight y y' mask sp d d' : (mb_b sp <> None \/ mb_strategy sp <> TrueLabels) ->
  (forall i, nth i mask false = true -> nth i y (-1)%Z = nth i y' (-1)%Z) ->
  poisson_mbo argmax n ei weight y mask sp = Ok d -> poisson_mbo argmax n ei weight y' mask sp = Ok d' -> d = d'.
Proof using All.
  intros Hst Hs H H'. destruct (mbo_ok _ _ _ _ _ _ _ H) as (E1 & k & md & P & O & r & HV & Hy & Hm & HC & Hsh & _). destruct (mbo_ok _ _ _ _ _ _ _ H') as (E1' & k' & md' & P' & O' & r' & HV' & Hy' & _ & HC' & Hsh' & _).
  assert (Hle : forall (a b : list Z) p q, (forall i, nth i mask false = true -> nth i a (-1)%Z = nth i b (-1)%Z) -> class_range a p -> class_range b q -> length a = Z.to_nat n -> length b = Z.to_nat n ->
     (forall c, (c < p)%nat -> exists i, nth i mask false = true /\ nth i a (-1)%Z = Z.of_nat c) -> (p <= q)%nat).
  { intros a b p q Hab (Hp & _) (_ & Hq & _) Ha Hb Hsa. destruct (Hsa (p - 1)%nat ltac:(lia)) as (i & Hi & Hai). rewrite (Hab i Hi) in Hai. assert (Hin : (i < length b)%nat) by (destruct (Nat.lt_ge_cases i (length b)) as [|Hge]; [assumption|]; rewrite nth_overflow in Hai by lia; lia).
    specialize (Hq (nth i b (-1)%Z) (nth_In _ _ Hin)). lia. }
  assert (Hkk : k = k').
  { apply Nat.le_antisymm; [exact (Hle y y' k k' Hs HC HC' Hy Hy' Hsh)|exact (Hle y' y k' k (fun i Hi => eq_sym (Hs i Hi)) HC' HC Hy' Hy Hsh')]. }
  subst k'. clear Hle.
  assert (Hval : forall a, class_range a k -> (forall c, (c < k)%nat -> exists i, nth i mask false = true /\ nth i a (-1)%Z = Z.of_nat c) -> length a = Z.to_nat n -> filter (fun v => (v >=? 0)%Z) a <> [] /\ (fold_right Z.max 0 (filter (fun v => v >=? 0) a) + 1)%Z = Z.of_nat k).
  { intros a HCa Hsa Ha. assert (Hf : filter (fun v => (v >=? 0)%Z) a <> []).
    { destruct (Hsa 0%nat ltac:(destruct HCa; lia)) as (i & Hi & Hai). assert (Hin : (i < length a)%nat) by (destruct (Nat.lt_ge_cases i (length a)) as [|Hge]; [assumption|]; rewrite nth_overflow in Hai by lia; lia).
      intros Hc. assert (HI : In (nth i a (-1)%Z) (filter (fun v => (v >=? 0)%Z) a)) by (apply filter_In; split; [apply nth_In, Hin|lia]). rewrite Hc in HI. destruct HI. }
    split; [exact Hf|]. assert (HR := valid_range a Hf). rewrite (class_range_unique _ _ _ HCa HR). destruct (max_valid _ Hf) as (_ & Hm0 & _); [intros v Hv; apply filter_In in Hv as [_ Hv]; lia|]. lia. }
  destruct (Hval y HC Hsh Hy) as [Hf Hk1]. destruct (Hval y' HC' Hsh' Hy') as [Hf' Hk2]. clear Hval. assert (Hlen : length y = length y') by congruence.
  unfold poisson_mbo in H, H'. rewrite HV in H, H'. cbn [bind] in H, H'. destruct (negb (lenZ y =? n)%Z); [discriminate|]. destruct (negb (lenZ y' =? n)%Z); [discriminate|]. destruct (negb (lenZ mask =? n)%Z); [discriminate|].
  assert (Hch : forall ybar, chosen_b y k sp ybar = chosen_b y' k sp ybar). { intros ybar. unfold chosen_b. destruct (mb_b sp); [reflexivity|]. unfold b_prior. destruct Hst as [Hst|Hst]; [congruence|]. destruct (mb_strategy sp); reflexivity || congruence. }
  destruct (filter (fun v => (v >=? 0)%Z) y) as [|v0 vs]; [congruence|]. destruct (filter (fun v => (v >=? 0)%Z) y') as [|v0' vs']; [congruence|]. rewrite Hk1 in H. rewrite Hk2 in H'.
  inv_bind H. inv_bind H'. apply onehot_ok in E as (_ & _ & ->). apply onehot_ok in E0 as (_ & _ & ->). rewrite Nat2Z.id in H, H'. rewrite (zeroed_same k mask y y' Hlen Hs) in H. cbv zeta in H, H'. rewrite Hch in H. congruence.
Qed.
End Run.
(* symmetrised: the Poisson iterates stay balanced *)
Section Balance.
Variables (n k : nat) (strength : nat -> nat -> Q) (src : nat -> nat -> Q).
Hypothesis Hsym : forall i j, strength i j == strength j i.
Hypothesis Hnn : forall i j, 0 <= strength i j.
Lemma excess_sum U c : over_nodes n (fun i => excess n strength U i c) == 0.
Proof using Hsym.
  set (T := over_nodes n (fun i => excess n strength U i c)).
  assert (HT : T == - T); [|lra].
  unfold T, excess. rewrite (over_swap n (fun i j => strength i j * (U i c - U j c))) at 1.
  transitivity (over_nodes n (fun j => (-1) * over_nodes n (fun i => strength j i * (U j c - U i c)))).
  - apply over_ext. intros j Hj. rewrite <- over_scale. apply over_ext. intros i Hi. rewrite (Hsym j i). ring.
  - rewrite over_scale. ring.
Qed.
Lemma isolated_excess U i c : total n strength i <= 0 -> (i < n)%nat -> excess n strength U i c == 0.
Proof using Hnn.
  intros Ht Hi. apply Qsum_zero. intros j Hj. assert (Hz : strength i j == 0).
  { assert (H0 : forall x, In x (map (strength i) (seq 0 n)) -> 0 <= x) by (intros x Hx; apply in_map_iff in Hx as (m & <- & _); apply Hnn). assert (Hs := Qsum_nonneg _ H0).
    unfold total, over_nodes in Ht. apply (Qsum_zero_inv _ H0); [lra|]. apply in_map_iff. exists j. auto. }
  rewrite Hz. ring.
Qed.
Lemma balanced P c : (c < k)%nat -> over_nodes n (fun i => src i c) == 0 -> (forall i, (i < n)%nat -> total n strength i <= 0 -> src i c == 0) ->
  agree n k (P 0%nat) (fun _ _ => 0) -> (forall m, agree n k (P (S m)) (poisson_round n strength src (P m))) ->
  forall m, over_nodes n (fun i => total n strength i * P m i c) == 0.
Proof using All.
  intros Hc Hs Hiso H0 HS m. induction m as [|m IH].
  - apply Qsum_zero. intros i Hi. apply in_seq in Hi. rewrite (H0 i c) by lia. ring.
  - transitivity (over_nodes n (fun i => total n strength i * P m i c + (src i c + (-1) * excess n strength (P m) i c))).
    + apply over_ext. intros i Hi. rewrite (HS m i c Hi Hc). unfold poisson_round. destruct (Qle_bool (total n strength i) 0) eqn:E.
      * apply Qle_bool_iff in E. rewrite (isolated_excess (P m) i c E Hi), (Hiso i Hi E). ring.
      * assert (~ total n strength i == 0) by (intros Hz; assert (Hle : total n strength i <= 0) by lra; apply Qle_bool_iff in Hle; congruence). field. assumption.
    + rewrite over_plus, over_plus, over_scale, IH, Hs, excess_sum. ring.
Qed.
End Balance.
