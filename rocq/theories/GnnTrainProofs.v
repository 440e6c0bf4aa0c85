From Coq Require Import QArith Qminmax Qabs Lqa ZifyBool ZifyNat.
From Verif Require Import Prelude ListFacts SampleServiceProofs QFacts TransModel TransSpec TransProofs TransSolveProofs GnnModel GnnSpec GnnProofs.
Local Open Scope Q_scope.
Local Open Scope list_scope.
Local Notation length := List.length.

(* ---- accepted data sets *)
Lemma validate_node_iff y ei masks : validate_node y ei masks = Ok tt <->
  (forall c d, In c y -> (0 <= d <= c)%Z -> In d y) /\ (forall e, In e ei -> (0 <= fst e < lenZ y)%Z /\ (0 <= snd e < lenZ y)%Z) /\ (forall m, In m masks -> length m = length y).
Proof.
  split; [apply validate_node_ok|]. intros (Hc & He & Hm). unfold validate_node. set (cl := uniqueZ (filter (fun v => (v >=? 0)%Z) y)).
  assert (HI : forall v, In v cl <-> (0 <= v)%Z /\ In v y) by (intros v; unfold cl; rewrite uniqueZ_In, filter_In; intuition lia).
  assert (HN : NoDup cl) by apply uniqueZ_NoDup.
  assert (Heq : cl = arange (lenZ cl)).
  { assert (HB : forall v, In v cl -> (v < lenZ cl)%Z).
    { intros v Hv. assert (Hincl : incl (arange (v + 1)) cl) by (intros d Hd; apply arange_In in Hd; apply HI; apply HI in Hv as [Hv1 Hv2]; split; [lia|]; apply (Hc v); [exact Hv2|lia]).
      apply NoDup_incl_length in Hincl; [|apply arange_NoDup]. rewrite arange_length in Hincl. apply HI in Hv. unfold lenZ. lia. }
    apply ascending_ext; [apply uniqueZ_ascending|apply arange_ascending|]. assert (HSub : incl cl (arange (lenZ cl))) by (intros v Hv; apply arange_In; split; [apply HI in Hv; lia|apply HB, Hv]).
    intros v. split; [apply HSub|]. intros Hv. apply (NoDup_length_incl HN (l' := arange (lenZ cl))); [|exact HSub|exact Hv]. rewrite arange_length. unfold lenZ. lia. }
  destruct (list_eq_dec Z.eq_dec cl (arange (lenZ cl))) as [_|Hne]; [|contradiction]. cbn [negb].
  destruct (existsb _ ei) eqn:E1; [apply existsb_exists in E1 as (e & Hin & E1); specialize (He e Hin); lia|].
  destruct (existsb _ masks) eqn:E2; [apply existsb_exists in E2 as (m & Hin & E2); specialize (Hm m Hin); unfold lenZ in *; lia|]. reflexivity.
Qed.
Lemma present_In {A} (o : option A) a : In a (present o) <-> o = Some a.
Proof. destruct o as [b|]; cbn; split; [intros [->|[]]; reflexivity|intros [= ->]; now left|intros []|discriminate]. Qed.
Definition prepared_of (rsqrt : Q -> Q) (tiny : Q) (d : node_data) (loops : bool) (mode : gnn_norm) (train : list bool) : prepared :=
  {| pp_X := nd_X d; pp_y := nd_y d; pp_E := edge_normalise rsqrt tiny mode (with_loops loops (lenZ (nd_X d)) (weighted d)); pp_train := train; pp_val := nd_val d; pp_n := lenZ (nd_X d); pp_classes := count_classes (nd_y d) |}.
Lemma prepare_ok rsqrt tiny d loops mode p : prepare_data rsqrt tiny d loops mode = Ok p <-> usable d /\ exists train, nd_train d = Some train /\ p = prepared_of rsqrt tiny d loops mode train.
Proof.
  unfold prepare_data, usable. destruct (Z.eqb_spec (lenZ (nd_X d)) (lenZ (nd_y d))) as [Hl|Hl]; cbn [negb]; [|split; [discriminate|intros [[H _] _]; exfalso; apply Hl; unfold lenZ; now rewrite H]].
  assert (HL : length (nd_X d) = length (nd_y d)) by (unfold lenZ in Hl; lia).
  assert (HW : length (match nd_weight d with None => map (fun _ : Z * Z => 1) (nd_edges d) | Some w => w end) = length (nd_edges d) <-> match nd_weight d with None => True | Some w => length w = length (nd_edges d) end) by (destruct (nd_weight d); [reflexivity|rewrite map_length; tauto]).
  destruct (validate_node (nd_y d) (nd_edges d) (present (nd_train d) ++ present (nd_val d) ++ present (nd_test d) ++ present (nd_unlabeled d))) as [[]|e] eqn:Ev; cbn [bind].
  - apply validate_node_ok in Ev as (Hc & He & Hm). destruct (nd_train d) as [train|] eqn:Et; [|split; [discriminate|intros [(_ & _ & _ & (m & Hm') & _) _]; discriminate Hm']].
    destruct (Nat.eqb_spec (length (match nd_weight d with None => map (fun _ : Z * Z => 1) (nd_edges d) | Some w => w end)) (length (nd_edges d))) as [Hw|Hw]; cbn [negb].
    + split.
      * intros [= <-]. split; [|exists train; split; reflexivity]. split; [exact HL|]. split; [exact Hc|]. split; [rewrite Hl; exact He|]. split; [now exists train|]. split; [|now apply HW]. intros m Hms. rewrite HL. apply Hm. rewrite !in_app_iff, !present_In. exact Hms.
      * intros [_ (t & [= ->] & ->)]. reflexivity.
    + split; [discriminate|]. intros [(_ & _ & _ & _ & _ & HH) _]. exfalso. apply Hw, HW, HH.
  - split; [discriminate|]. intros [(_ & Hc & He & _ & Hm & _) _]. exfalso. enough (validate_node (nd_y d) (nd_edges d) (present (nd_train d) ++ present (nd_val d) ++ present (nd_test d) ++ present (nd_unlabeled d)) = Ok tt) by congruence.
    apply validate_node_iff. split; [exact Hc|]. split; [rewrite <- Hl; exact He|]. intros m Hms. rewrite <- HL. apply Hm. rewrite !in_app_iff, !present_In in Hms. exact Hms.
Qed.
Lemma weighted_In d e : In e (weighted d) -> In (e_src e, e_dst e) (nd_edges d).
Proof. unfold weighted. destruct e as [[a b] w]. intros H. apply in_combine_l in H. exact H. Qed.
Lemma weighted_range d : usable d -> in_range (Z.to_nat (lenZ (nd_X d))) (weighted d).
Proof. intros (_ & _ & He & _) e H. apply weighted_In, He in H. cbn [fst snd] in H. unfold lenZ in *. lia. Qed.
Lemma count_classes_bound y v : In v y -> (v < count_classes y)%Z.
Proof.
  destruct y as [|a r]; [intros []|]. cbn [count_classes]. assert (H : forall x, In x (a :: r) -> (x <= fold_right Z.max a r)%Z); [|intros Hv; specialize (H v Hv); lia].
  induction r as [|b r IH]; intros x Hx; cbn [fold_right]; [destruct Hx as [<-|[]]; lia|]. destruct Hx as [<-|[<-|Hx]]; [specialize (IH a (or_introl eq_refl)); lia|lia|specialize (IH x (or_intror Hx)); lia].
Qed.

(* ---- the rows *)
Lemma shown_rows m y : rows_of m y (shown m y).
Proof.
  unfold shown. split.
  - rewrite map_map. cbn [fst]. rewrite map_id. apply StronglySorted_filter. generalize 0%nat, (length y). intros a k. revert a. induction k as [|k IH]; intros a; cbn [seq]; constructor; [apply IH|]. apply Forall_forall. intros x Hx. apply in_seq in Hx. lia.
  - intros i v. rewrite in_map_iff. split.
    + intros (j & [= <- <-] & Hj). apply filter_In in Hj as [Hj Hm]. apply in_seq in Hj. split; [lia|]. now split.
    + intros (Hi & Hm & Hv). exists i. split; [now rewrite Hv|]. apply filter_In. split; [apply in_seq; lia|exact Hm].
Qed.
Lemma exists_true m : existsb (fun b : bool => b) m = true <-> exists i, nth i m false = true.
Proof.
  rewrite existsb_exists. split.
  - intros (b & Hb & ->). destruct (In_nth m true false Hb) as (i & Hi & E). now exists i.
  - intros (i & Hi). destruct (Nat.lt_ge_cases i (length m)) as [Hl|Hl]; [|rewrite nth_overflow in Hi by lia; discriminate]. exists true. split; [rewrite <- Hi; now apply nth_In|reflexivity].
Qed.
Lemma val_rows_spec m y : validation_rows m y (val_rows m y).
Proof.
  destruct m as [m|]; [|reflexivity]. unfold validation_rows, val_rows. destruct (existsb (fun b => b) m) eqn:Em.
  - left. split; [now apply exists_true|]. eexists. split; [reflexivity|apply shown_rows].
  - right. split; [|reflexivity]. intros i. destruct (nth i m false) eqn:Ei; [|reflexivity]. assert (existsb (fun b : bool => b) m = true) by (apply exists_true; eauto). congruence.
Qed.
Lemma bad_target_iff classes rows : bad_target classes rows = false <-> forall i v, In (i, v) rows -> accepted_label classes v.
Proof.
  unfold bad_target, accepted_label. split.
  - intros H i v Hin. destruct (negb ((0 <=? v)%Z && (v <? classes)%Z || (v =? -100)%Z)) eqn:Eb; [|lia]. exfalso. assert (existsb (fun r : nat * Z => negb ((0 <=? snd r)%Z && (snd r <? classes)%Z || (snd r =? -100)%Z)) rows = true) by (apply existsb_exists; exists (i, v); auto). congruence.
  - intros H. destruct (existsb _ rows) eqn:Eb; [|reflexivity]. apply existsb_exists in Eb as ([i v] & Hin & Eb). cbn [snd] in Eb. specialize (H i v Hin). lia.
Qed.

(* ---- the loop *)
Lemma less_iff a b : less a b = true <-> clearly_lower a b.
Proof.
  unfold less, clearly_lower. destruct a as [x|], b as [y|]; try (split; [discriminate|intros (? & ? & ? & ? & _); discriminate]).
  rewrite Bool.negb_true_iff. split.
  - intros H. exists x, y. split; [reflexivity|]. split; [reflexivity|]. apply Qnot_le_lt. intros Hle. apply Qle_bool_iff in Hle. congruence.
  - intros (x' & y' & [= <-] & [= <-] & Hl). destruct (Qle_bool (y - (1 # 1000000000)) x) eqn:E; [apply Qle_bool_iff in E; lra|reflexivity].
Qed.
Lemma kept_unique counts v e b : kept counts v e b -> forall b', kept counts v e b' -> b = b'.
Proof.
  induction 1 as [H|H|e H IH Hc|e H IH Hc|e b H IH Hc|e b H IH Hc]; intros b' H'; inversion H'; subst; try reflexivity; try contradiction;
    match goal with K : kept counts v e _ |- _ => apply IH in K; try discriminate; try (injection K as ->; contradiction); try (now injection K as ->) end.
Qed.
Lemma kept_bound counts v e b : kept counts v e (Some b) -> (b <= e)%nat.
Proof. remember (Some b) as o. intros H. revert b Heqo. induction H; intros b' Hb; try discriminate; try (injection Hb as <-; lia). specialize (IHkept b' Hb). lia. Qed.
Section Loop.
Variables W Op G : Type.
Variable step : W -> Op -> G -> list (nat * Z) -> W * Op * G.
Variable val_loss : W -> list (nat * Z) -> option Q.
Local Notation after := (after step).
Local Notation after0 rows s e := (@GnnSpec.after W Op G step rows s e).
Variable counts : option Q -> Prop.
Variable first : option Q -> bool.
Hypothesis Hfirst : forall v, first v = true <-> counts v.
Section WithVal.
Variables (train rows : list (nat * Z)) (s0 : W * Op * G) (patience : Z).
Definition seen (e : nat) : option Q := val_loss (weights_of (after0 train s0 (S e))) rows.
Definition best_state (o : option nat) : option (Z * option Q * W) := option_map (fun b => (Z.of_nat b, seen b, weights_of (after0 train s0 (S b)))) o.
Definition progress (e : nat) (best : option (Z * option Q * W)) (bad : Z) : Prop :=
  match e with
  | O => best = None /\ bad = 0%Z
  | S e' => exists o, kept counts seen e' o /\ best = best_state o /\ bad = since e' o /\ forall a b, (a <= e')%nat -> kept counts seen a b -> (since a b < Z.max 1 patience)%Z
  end.
Lemma kept_step e best bad : progress e best bad ->
  let test := match best with None => first (seen e) | Some (_, b, _) => less (seen e) b end in
  exists o, kept counts seen e o /\ (if test then o = Some e else best = best_state o /\ since e o = (bad + 1)%Z) /\ (0 <= bad)%Z.
Proof using Hfirst.
  intros HP. destruct e as [|e'].
  - destruct HP as [-> ->]. cbn zeta. destruct (first (seen 0)) eqn:Ef.
    + exists (Some 0%nat). split; [apply kept_first, Hfirst, Ef|]. split; [reflexivity|lia].
    + exists None. split; [apply kept_none; intros Hc; apply Hfirst in Hc; congruence|]. split; [split; [reflexivity|reflexivity]|lia].
  - destruct HP as (o & Hk & -> & -> & Hs). destruct o as [b|]; cbn [best_state option_map]; cbn zeta.
    + assert (Hb := kept_bound _ _ _ _ Hk). destruct (less (seen (S e')) (seen b)) eqn:El.
      * exists (Some (S e')). split; [apply (kept_new _ _ _ b Hk), less_iff, El|]. split; [reflexivity|]. cbn [since]. lia.
      * exists (Some b). split; [apply kept_old; [exact Hk|]; intros Hc; apply less_iff in Hc; congruence|]. split; [split; [reflexivity|]|]; cbn [since]; lia.
    + destruct (first (seen (S e'))) eqn:Ef.
      * exists (Some (S e')). split; [apply kept_later; [exact Hk|apply Hfirst, Ef]|]. split; [reflexivity|]. cbn [since]. lia.
      * exists None. split; [apply kept_none_still; [exact Hk|intros Hc; apply Hfirst in Hc; congruence]|]. split; [split; [reflexivity|]|]; cbn [since]; lia.
Qed.
Lemma loop_val fuel : forall e best bad, progress e best bad -> (0 < e + fuel)%nat ->
  exists n o, stops_after counts seen patience (Z.of_nat (e + fuel)) n /\ kept counts seen (n - 1) o /\
    epoch_loop W Op G step val_loss first patience train (Some rows) fuel (Z.of_nat e) (after0 train s0 e) best bad = (Z.of_nat n, (weights_of (after0 train s0 n), snd (after0 train s0 n)), best_state o).
Proof using Hfirst.
  induction fuel as [|fuel IH]; intros e best bad HP Hpos.
  - destruct e as [|e']; [lia|]. destruct HP as (o & Hk & -> & -> & Hs). exists (S e'), o. rewrite Nat.add_0_r. replace (S e' - 1)%nat with e' by lia. split; [|split; [exact Hk|reflexivity]]. split; [lia|]. split; [lia|]. split; [|left; reflexivity]. intros a b Ha Hab. apply (Hs a b); [lia|exact Hab].
  - assert (HS := kept_step e best bad HP). cbn zeta in HS. destruct HS as (o & Hk & HT & Hbad). cbn [epoch_loop].
    change (step (fst (fst (after0 train s0 e))) (snd (fst (after0 train s0 e))) (snd (after0 train s0 e)) train) with (after0 train s0 (S e)).
    cbv zeta. change (val_loss (fst (fst (after0 train s0 (S e)))) rows) with (seen e). replace (Z.of_nat e + 1)%Z with (Z.of_nat (S e)) by lia.
    assert (HB : forall a b, (S a <= e)%nat -> kept counts seen a b -> (since a b < Z.max 1 patience)%Z).
    { intros a b Ha Hab. destruct e as [|e']; [lia|]. destruct HP as (o' & _ & _ & _ & Hs). apply (Hs a b); [lia|exact Hab]. }
    assert (HNEXT : (since e o < Z.max 1 patience)%Z -> forall a b, (a <= e)%nat -> kept counts seen a b -> (since a b < Z.max 1 patience)%Z).
    { intros Ho a b Ha Hab. destruct (Nat.eq_dec a e) as [->|Hne]; [rewrite (kept_unique _ _ _ _ Hab o Hk); exact Ho|apply HB; [lia|exact Hab]]. }
    match goal with |- context [if ?t then _ else _] => destruct t eqn:Et end.
    + subst o. destruct (IH (S e) (best_state (Some e)) 0%Z) as (n & o & Hst & Hkn & Heq).
      * exists (Some e). split; [exact Hk|]. split; [reflexivity|]. split; [cbn [since]; lia|]. apply HNEXT. cbn [since]. lia.
      * lia.
      * exists n, o. replace (e + S fuel)%nat with (S e + fuel)%nat by lia. split; [exact Hst|]. split; [exact Hkn|exact Heq].
    + destruct HT as [Hbest Hsince]. destruct (Z.leb_spec patience (bad + 1)) as [Hp|Hp].
      * exists (S e), o. replace (S e - 1)%nat with e by lia. split; [|split; [exact Hk|rewrite Hbest; reflexivity]]. split; [lia|]. split; [lia|]. split; [intros a b Ha Hab; apply HB; [lia|exact Hab]|]. right. exists o. replace (S e - 1)%nat with e by lia. split; [exact Hk|lia].
      * destruct (IH (S e) best (bad + 1)%Z) as (n & o' & Hst & Hkn & Heq).
        -- exists o. split; [exact Hk|]. split; [exact Hbest|]. split; [lia|]. apply HNEXT. lia.
        -- lia.
        -- exists n, o'. replace (e + S fuel)%nat with (S e + fuel)%nat by lia. split; [exact Hst|]. split; [exact Hkn|exact Heq].
Qed.
End WithVal.
Lemma loop_noval train s0 patience fuel : forall e best bad, epoch_loop W Op G step val_loss first patience train None fuel (Z.of_nat e) (after0 train s0 e) best bad =
  (Z.of_nat (e + fuel), (weights_of (after0 train s0 (e + fuel)), snd (after0 train s0 (e + fuel))), best).
Proof.
  induction fuel as [|fuel IH]; intros e best bad; [rewrite Nat.add_0_r; reflexivity|]. cbn [epoch_loop].
  change (step (fst (fst (after0 train s0 e))) (snd (fst (after0 train s0 e))) (snd (after0 train s0 e)) train) with (after0 train s0 (S e)). cbv zeta. replace (Z.of_nat e + 1)%Z with (Z.of_nat (S e)) by lia. rewrite IH. replace (e + S fuel)%nat with (S e + fuel)%nat by lia. reflexivity.
Qed.
End Loop.
(* without NaN, the kept epoch is the best one *)
Lemma kept_best v e b : kept (fun _ => True) v e (Some b) -> (forall a, (a <= e)%nat -> v a <> None) ->
  exists x, v b = Some x /\ (forall a y, (a <= e)%nat -> v a = Some y -> x <= y + (1 # 1000000000)) /\ (forall a y, (a < b)%nat -> v a = Some y -> x < y).
Proof.
  remember (Some b) as o. intros H. revert b Heqo. induction H as [H|H|e H IH Hc|e H IH Hc|e b H IH Hc|e b H IH Hc]; intros b' Hb HN; try discriminate; try (injection Hb as <-).
  - destruct (v 0%nat) as [x|] eqn:E0; [|exfalso; apply (HN 0%nat); [lia|exact E0]]. exists x. split; [reflexivity|]. split; [|intros; lia]. intros a y Ha Hy. replace a with 0%nat in Hy by lia. rewrite E0 in Hy. injection Hy as <-. lra.
  - exfalso. clear -H. remember None as o. induction H; try discriminate; auto.
  - destruct (IH b eq_refl) as (x & Hx & H1 & H2); [intros a Ha; apply HN; lia|]. destruct Hc as (p & q & Ep & Eq & Hpq). rewrite Hx in Eq. injection Eq as <-. exists p. split; [exact Ep|]. assert (HA : forall a y, (a <= e)%nat -> v a = Some y -> p < y) by (intros a y Ha Hy; specialize (H1 a y Ha Hy); lra). split.
    + intros a y Ha Hy. destruct (Nat.eq_dec a (S e)) as [->|Hne]; [rewrite Ep in Hy; injection Hy as <-; lra|]. specialize (HA a y ltac:(lia) Hy). lra.
    + intros a y Ha Hy. apply (HA a y); [lia|exact Hy].
  - destruct (IH b eq_refl) as (x & Hx & H1 & H2); [intros a Ha; apply HN; lia|]. exists x. split; [exact Hx|]. split; [|exact H2]. intros a y Ha Hy. destruct (Nat.eq_dec a (S e)) as [->|Hne]; [|apply (H1 a y); [lia|exact Hy]].
    apply Qnot_lt_le. intros Hlt. apply Hc. exists y, x. split; [exact Hy|]. split; [exact Hx|]. lra.
Qed.
Lemma kept_some v e b : kept (fun _ => True) v e b -> exists b', b = Some b'.
Proof. induction 1; try tauto; eauto. Qed.

(* ---- hidden labels *)
Lemma shown_same m y y' : length y = length y' -> same_shown m y y' -> shown m y = shown m y'.
Proof. intros HL HS. unfold shown. rewrite <- HL. apply map_ext_in. intros i Hi. apply filter_In in Hi as [_ Hi]. now rewrite (HS i Hi). Qed.

(* ---- the cache *)
Lemma key_eqb_eq a b : key_eqb a b = true -> a = b.
Proof.
  destruct a as [[[[d o] g] l] m], b as [[[[d' o'] g'] l'] m']. unfold key_eqb. destruct o as [o1 o2 o3 o4], o' as [p1 p2 p3 p4], g as [g1 g2], g' as [k1 k2]. cbn [ob_X ob_y ob_graph ob_masks ob_edges ob_weight]. rewrite !andb_true_iff. intros [[[[[[[[H1 H2] H3] H4] H5] H6] H7] H8] H9].
  apply Bool.eqb_prop in H8. assert (m = m') by (destruct m, m'; congruence). repeat match goal with H : (_ =? _)%Z = true |- _ => apply Z.eqb_eq in H end. congruence.
Qed.
Lemma key_eqb_refl a : key_eqb a a = true.
Proof. destruct a as [[[[d o] g] l] m]. unfold key_eqb. rewrite !Z.eqb_refl, Bool.eqb_reflx. destruct m; reflexivity. Qed.
Lemma unchanged_read h h' d : unchanged h h' -> h_data h d = h_data h' d -> h_graph h (ob_graph (h_data h d)) = h_graph h' (ob_graph (h_data h' d)) -> read_data h d = read_data h' d.
Proof. intros (H1 & H2 & H3 & H4 & H5) Hd Hg. unfold read_data. rewrite Hg, Hd, H1, H2, H3, H4, H5. reflexivity. Qed.
Lemma calls_fresh rsqrt tiny calls : forall c past, (forall h, In h (past ++ map (fun k : prep_call => fst (fst (fst k))) calls) -> forall h', In h' (past ++ map (fun k : prep_call => fst (fst (fst k))) calls) -> unchanged h h') ->
  match c with None => True | Some (key, p) => exists h d loops mode, In h past /\ key = prep_key h d loops mode /\ prepare_data rsqrt tiny (read_data h d) loops mode = Ok p end ->
  prep_calls rsqrt tiny c calls = map (fun k : prep_call => let '(h, d, loops, mode) := k in prepare_data rsqrt tiny (read_data h d) loops mode) calls.
Proof.
  induction calls as [|[[[h d] loops] mode] calls IH]; intros c past HU Hc; [reflexivity|]. cbn [prep_calls map fst] in *.
  assert (HU' : forall h0, In h0 ((past ++ [h]) ++ map (fun k : prep_call => fst (fst (fst k))) calls) -> forall h', In h' ((past ++ [h]) ++ map (fun k : prep_call => fst (fst (fst k))) calls) -> unchanged h0 h') by (intros h0 H0 h' H'; rewrite <- app_assoc in H0, H'; apply HU; assumption).
  assert (HFRESH : forall r c', match prepare_data rsqrt tiny (read_data h d) loops mode with Ok p => (Ok p, Some (prep_key h d loops mode, p)) | Err e => (Err e, c) end = (r, c') ->
    r = prepare_data rsqrt tiny (read_data h d) loops mode /\ match c' with None => True | Some (key, p) => exists h0 d loops mode, In h0 (past ++ [h]) /\ key = prep_key h0 d loops mode /\ prepare_data rsqrt tiny (read_data h0 d) loops mode = Ok p end).
  { intros r c' H. destruct (prepare_data rsqrt tiny (read_data h d) loops mode) as [p|e] eqn:Ep; injection H as <- <-; (split; [reflexivity|]).
    - exists h, d, loops, mode. split; [apply in_app_iff; right; now left|]. now split.
    - destruct c as [[key p]|]; [|exact I]. destruct Hc as (h0 & d0 & l0 & m0 & Hin & Hk & Hp). exists h0, d0, l0, m0. split; [apply in_app_iff; now left|]. now split. }
  destruct (prepare_cached rsqrt tiny c h d loops mode) as [r c'] eqn:Epc. unfold prepare_cached in Epc. cbv zeta in Epc. destruct c as [[key p]|].
  - destruct (key_eqb key (prep_key h d loops mode)) eqn:Ek.
    + apply key_eqb_eq in Ek. injection Epc as <- <-. destruct Hc as (h0 & d0 & l0 & m0 & Hin & Hk & Hp). rewrite Hk in Ek. unfold prep_key in Ek. injection Ek as -> Ed Eg -> ->.
      assert (HR : read_data h0 d = read_data h d) by (apply unchanged_read; [apply HU; apply in_app_iff; [now left|right; now left]|exact Ed|exact Eg]). f_equal; [now rewrite <- HR, Hp|]. apply (IH _ (past ++ [h]) HU'). exists h0, d, loops, mode. split; [apply in_app_iff; now left|]. split; [exact Hk|exact Hp].
    + destruct (HFRESH r c' Epc) as [-> Hc']. f_equal. apply (IH _ (past ++ [h]) HU' Hc').
  - destruct (HFRESH r c' Epc) as [-> Hc']. f_equal. apply (IH _ (past ++ [h]) HU' Hc').
Qed.

(* ---- the prepared edges *)
Lemma prepared_weight rsqrt tiny mode loops n E i j : (mode = NormSym -> same_value rsqrt) -> (0 < n)%Z -> in_range (Z.to_nat n) E -> (i < Z.to_nat n)%nat -> (j < Z.to_nat n)%nat ->
  weight_from (edge_normalise rsqrt tiny mode (with_loops loops n E)) i j == takes rsqrt tiny mode loops (Z.to_nat n) E i j.
Proof.
  intros Hr Hn HE Hi Hj. set (E' := edge_normalise rsqrt tiny mode (with_loops loops n E)). set (F := tabulate (Z.to_nat n) 1 (fun l _ => if Nat.eqb l j then 1 else 0)).
  assert (HR : in_range (Z.to_nat n) E') by (intros e He; unfold E', edge_normalise in He; apply in_map_iff in He as (x & <- & Hx); rewrite e_src_mk, e_dst_mk; exact (with_loops_range loops n E Hn HE x Hx)).
  assert (HP : forall f : nat -> Q, Qsum (map (fun l => f l * entry F l 0) (seq 0 (Z.to_nat n))) == f j).
  { intros f. rewrite <- (sum_pick f j (seq 0 (Z.to_nat n))) by (try apply seq_NoDup; apply in_seq; lia). apply Qsum_ext. intros l Hl. apply in_seq in Hl. unfold F. rewrite entry_tabulate by lia. ring. }
  rewrite <- (HP (fun l => weight_from E' i l)). rewrite (weight_sum E' (fun l => entry F l 0) (Z.to_nat n) i HR). rewrite <- (HP (takes rsqrt tiny mode loops (Z.to_nat n) E i)).
  rewrite <- (spmm_takes rsqrt tiny mode loops n E 1 F i 0 Hr Hn HE Hi) by lia. fold E'. rewrite spmm_entry by (try assumption; lia). reflexivity.
Qed.
Lemma within_prepared rsqrt tiny mode loops n E r j i : (0 < n)%Z -> in_range (Z.to_nat n) E -> within (edge_normalise rsqrt tiny mode (with_loops loops n E)) r j i -> within E r j i.
Proof.
  intros Hn HE H. induction H as [r i|r j i e He Hi H IH]; [apply here|]. unfold edge_normalise in He. apply in_map_iff in He as (x & <- & Hx). rewrite e_dst_mk in Hi. rewrite e_src_mk in *. destruct loops; cbn [with_loops] in Hx.
  - destruct (coalesce_In n _ x Hn (loops_range n E HE) Hx) as (x' & Hx' & Hs & Hd). rewrite Hs, Hd in *. apply in_app_iff in Hx' as [Hx'|Hx']; [eapply further; eassumption|].
    apply in_map_iff in Hx' as (l & <- & Hl). rewrite e_src_mk in *. rewrite e_dst_mk in *. subst l. rewrite Nat2Z.id in IH. clear -IH. remember (S r) as q. assert (Hq : (r <= q)%nat) by lia. clear Heqq. revert q Hq. induction IH as [r i|r j i e He Hi H IHH]; intros q Hq; [apply here|]. destruct q as [|q]; [lia|]. eapply further; [exact He|exact Hi|]. apply IHH. lia.
  - eapply further; eassumption.
Qed.
Lemma no_edge_weight E i j : (forall e, In e E -> ~ (e_dst e = Z.of_nat i /\ e_src e = Z.of_nat j)) -> weight_from E i j == 0.
Proof.
  intros H. unfold weight_from. replace (filter _ E) with (@nil edge); [reflexivity|]. symmetry. induction E as [|e E IH]; [reflexivity|]. cbn [filter]. rewrite IH by (intros; apply H; now right). specialize (H e (or_introl eq_refl)). destruct ((e_dst e =? Z.of_nat i)%Z && (e_src e =? Z.of_nat j)%Z) eqn:Eb; [exfalso; apply H; lia|reflexivity].
Qed.
