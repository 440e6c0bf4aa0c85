From Coq Require Import QArith Qminmax Lqa Lia ZifyBool ZifyNat.
From Verif Require Import Prelude ListFacts QFacts BundleProofs TransModel TransSpec TransProofs GnnModel GnnSpec GnnProofs PcaModel DgiModel DgiSpec.
Local Open Scope Z_scope.
Local Open Scope list_scope.
Local Notation length := List.length.

Lemma table_iff x d X : ensure_2d x = Ok (d, X) <-> table_of x d X.
Proof.
  unfold table_of; destruct x as [|l|w rows|]; cbn; split; try discriminate.
  - intros [(l & E & _)|E]; discriminate.
  - intros [= <- <-]; left; exists l; repeat split.
  - intros [(l' & [= <-] & -> & ->)|E]; [reflexivity|discriminate].
  - intros [= <- <-]; right; reflexivity.
  - intros [(l & E & _)|[= <- <-]]; [discriminate|reflexivity].
  - intros [(l & E & _)|E]; discriminate.
Qed.
Lemma ensure_err x e : ensure_2d x = Err e -> e = PreprocessError.
Proof. destruct x; cbn; congruence. Qed.
Lemma in_combine_ex {A B} (l : list A) (m : list B) a : length l = length m -> In a l -> exists b, In (a, b) (combine l m).
Proof. revert m; induction l as [|x l IH]; intros [|y m] H Hi; try discriminate; [destruct Hi|]; destruct Hi as [->|Hi]; [exists y; left; reflexivity|]; destruct (IH m ltac:(cbn in H; lia) Hi) as (b & Hb); exists b; right; exact Hb. Qed.
Lemma in_combine_ex_r {A B} (l : list A) (m : list B) b : length l = length m -> In b m -> exists a, In (a, b) (combine l m).
Proof. revert m; induction l as [|x l IH]; intros [|y m] H Hi; try discriminate; [destruct Hi|]; destruct Hi as [->|Hi]; [exists x; left; reflexivity|]; destruct (IH m ltac:(cbn in H; lia) Hi) as (a & Ha); exists a; right; exact Ha. Qed.
Lemma range_check n src dst : length src = length dst -> (existsb (fun v => (v <? 0) || (v >=? Z.of_nat n)) (src ++ dst) = false <-> inside n (combine src dst)).
Proof.
  intros L; rewrite <- not_true_iff_false, existsb_exists; split.
  - intros H u v Hi; split; [destruct (Z_lt_le_dec u 0); [|destruct (Z_lt_le_dec u (Z.of_nat n)); [lia|]]|destruct (Z_lt_le_dec v 0); [|destruct (Z_lt_le_dec v (Z.of_nat n)); [lia|]]]; exfalso; apply H;
      first [exists u; split; [apply in_or_app; left; exact (in_combine_l _ _ _ _ Hi)|lia]|exists v; split; [apply in_or_app; right; exact (in_combine_r _ _ _ _ Hi)|lia]].
  - intros H (v & Hv & Hb); apply in_app_or in Hv; destruct Hv as [Hv|Hv]; [destruct (in_combine_ex src dst v L Hv) as (b & Hi)|destruct (in_combine_ex_r src dst v L Hv) as (a & Hi)]; apply H in Hi; lia.
Qed.
Lemma cols_pairs (pairs : list (Z * Z)) : combine (map (fun r => nth 0 r 0) (map (fun p => [fst p; snd p]) pairs)) (map (fun r => nth 1 r 0) (map (fun p => [fst p; snd p]) pairs)) = pairs.
Proof. induction pairs as [|(u, v) l IH]; [reflexivity|]; cbn; f_equal; exact IH. Qed.
Lemma edge_index_ok n e pairs : well_formed e -> (as_edge_index n e = Ok pairs <-> lists e pairs /\ inside n pairs).
Proof.
  intros Wf; destruct e as [rows k|]; [|split; [discriminate|intros ([(s & d & k & E & _)|(r & E & _)] & _); discriminate]].
  cbn [well_formed] in Wf; unfold as_edge_index; destruct (Nat.eqb_spec (length rows) 2) as [E2'|N2]; cbn [negb andb].
  - destruct rows as [|src [|dst [|? ?]]]; try discriminate E2'.
    assert (Ls : length src = k) by (apply Wf; left; reflexivity); assert (Ld : length dst = k) by (apply Wf; right; left; reflexivity).
    pose proof (range_check n src dst ltac:(lia)) as RC; destruct (existsb _ _); split.
    + discriminate.
    + intros ([(s & d & k' & [= -> -> ->] & _ & _ & ->)|(r & [= <- ->] & N & _)] & I); [|cbn in N; lia]; apply RC in I; discriminate.
    + intros [= <-]; split; [left; exists src, dst, k; repeat split; assumption|apply RC; reflexivity].
    + intros ([(s & d & k' & [= -> -> ->] & _ & _ & ->)|(r & [= <- ->] & N & _)] & I); [reflexivity|cbn in N; lia].
  - destruct (Nat.eqb_spec k 2) as [->|Nk]; cbn [andb].
    + set (s := map (fun r => nth 0 r 0) rows); set (d := map (fun r => nth 1 r 0) rows).
      assert (L : length s = length d) by (unfold s, d; rewrite !map_length; reflexivity); pose proof (range_check n s d L) as RC.
      assert (Er : rows = map (fun p => [fst p; snd p]) (combine s d)).
      { unfold s, d; clear - Wf; induction rows as [|r rows IH]; [reflexivity|]; cbn [map combine]; pose proof (Wf r (or_introl eq_refl)) as Lr; destruct r as [|a [|b [|? ?]]]; try discriminate Lr; cbn [nth fst snd]; f_equal; apply IH; intros q Hq; apply Wf; right; exact Hq. }
      assert (U : forall p, rows = map (fun p => [fst p; snd p]) p -> p = combine s d) by (intros p Ep; unfold s, d; rewrite Ep; symmetry; apply cols_pairs).
      destruct (existsb _ (s ++ d)); split.
      * discriminate.
      * intros ([(s' & d' & k' & [= -> _] & _)|(r & [= <-] & _ & _ & Ep)] & I); [cbn in N2; lia|]; apply U in Ep; rewrite Ep in I; apply RC in I; discriminate.
      * intros [= <-]; split; [right; exists rows; repeat split; assumption|apply RC; reflexivity].
      * intros ([(s' & d' & k' & [= -> _] & _)|(r & [= <-] & _ & _ & Ep)] & I); [cbn in N2; lia|]; apply U in Ep; rewrite Ep; reflexivity.
    + split; [destruct rows as [|a [|b [|? ?]]]; try discriminate; cbn in N2; lia|].
      intros ([(s' & d' & k' & [= -> _] & _)|(r & [= _ ->] & _)] & _); [cbn in N2; lia|lia].
Qed.
Lemma edge_index_err n e er : as_edge_index n e = Err er -> er = PreprocessError.
Proof. destruct e as [rows k|]; cbn; [|congruence]; destruct (if _ && _ then _ else rows) as [|a [|b [|? ?]]]; try congruence; destruct (existsb _ _); congruence. Qed.
Lemma weight_ok o k w : as_edge_weight o k = Ok w <-> length w = k /\ (o = Some w \/ (o = None /\ forall q, In q w -> q = 1%Q)).
Proof.
  unfold as_edge_weight; destruct o as [l|]; [destruct (Nat.eqb_spec (length l) k) as [E|E]; split|split].
  - intros [= <-]; split; [exact E|left; reflexivity].
  - intros (_ & [[= ->]|(H & _)]); [reflexivity|discriminate].
  - discriminate.
  - intros (L & [[= ->]|(H & _)]); [contradiction|discriminate].
  - intros [= <-]; split; [apply repeat_length|right; split; [reflexivity|intros q Hq; exact (repeat_spec _ _ _ Hq)]].
  - intros (L & [H|(_ & H)]); [discriminate|]; f_equal; subst k; clear - H; induction w as [|q w IH]; [reflexivity|]; cbn [length repeat]; rewrite (H q (or_introl eq_refl)); f_equal; apply IH; intros x Hx; apply H; right; exact Hx.
Qed.
Lemma weight_err o k e : as_edge_weight o k = Err e -> e = PreprocessError.
Proof. destruct o as [l|]; cbn; [destruct (Nat.eqb _ _); congruence|congruence]. Qed.
Lemma Qle_bool_false a b : Qle_bool a b = false <-> (b < a)%Q.
Proof. rewrite <- not_true_iff_false, Qle_bool_iff; split; [apply Qnot_le_lt|apply Qlt_not_le]. Qed.
Lemma config_ok c : (c_emb c <=? 0) || (c_hid c <=? 0) || (c_epochs c <=? 0) || Qle_bool (c_lr c) 0 || negb (Qle_bool 0 (c_dropout c) && negb (Qle_bool 1 (c_dropout c))) = false <-> good_config c.
Proof.
  unfold good_config; rewrite !orb_false_iff, negb_false_iff, andb_true_iff, negb_true_iff, !Qle_bool_false, Qle_bool_iff, !Z.leb_gt; tauto.
Qed.
Lemma checked_ok c s d X E : (forall e, s_edges s = Some e -> well_formed e) -> (checked c s = Ok (d, X, E) <-> good_config c /\ holds s d X E).
Proof.
  intros Wf; unfold checked, holds; split.
  - destruct (s_edges s) as [e|] eqn:Ee; [|discriminate]; specialize (Wf e eq_refl); intros H; apply bind_ok in H; destruct H as (x & Hx & H); apply bind_ok in H; destruct H as ((d', X') & Ht & H).
    apply bind_ok in H; destruct H as (pairs & Hp & H); apply bind_ok in H; destruct H as (w & Hw & H); destruct (_ || _) eqn:Ec; [discriminate|]; injection H as -> -> <-.
    split; [apply config_ok; exact Ec|]; apply table_iff in Ht; apply (edge_index_ok _ _ _ Wf) in Hp; destruct Hp as (Hl & Hi); apply weight_ok in Hw; destruct Hw as (Lw & Hw).
    exists x, e, pairs, w; split; [|split; [exact Ht|split; [reflexivity|split; [exact Hl|split; [exact Hi|split; [exact Lw|split; [exact Hw|reflexivity]]]]]]].
    unfold input_of; unfold get_X in Hx; destruct (s_features s) as [f|]; [injection Hx as ->; left; reflexivity|]; destruct (s_raw s) as [f|]; [injection Hx as ->; right; split; reflexivity|discriminate].
  - intros (Hc & x & e & pairs & w & Hx & Ht & Ee & Hl & Hi & Lw & Hw & ->); rewrite Ee; specialize (Wf e Ee).
    assert (Gx : get_X (s_features s) (s_raw s) = Ok x) by (unfold get_X; destruct Hx as [-> | (-> & ->)]; [destruct (s_raw s)|]; reflexivity); rewrite Gx; cbn [bind].
    apply table_iff in Ht; rewrite Ht; cbn [bind]; rewrite (proj2 (edge_index_ok _ _ _ Wf) (conj Hl Hi)); cbn [bind]; rewrite (proj2 (weight_ok _ _ _) (conj Lw Hw)); cbn [bind]; rewrite (proj2 (config_ok c) Hc); reflexivity.
Qed.
Lemma checked_err c s e : checked c s = Err e -> e = PreprocessError.
Proof.
  unfold checked; destruct (s_edges s) as [ei|]; [|congruence]; destruct (get_X _ _) as [x|]; cbn [bind]; [|congruence]; destruct (ensure_2d x) as [(d, X)|e1] eqn:E1; cbn [bind]; [|intros [= <-]; exact (ensure_err _ _ E1)].
  destruct (as_edge_index _ _) as [p|e2] eqn:E2'; cbn [bind]; [|intros [= <-]; exact (edge_index_err _ _ _ E2')]; destruct (as_edge_weight _ _) as [w|e3] eqn:E3; cbn [bind]; [|intros [= <-]; exact (weight_err _ _ _ E3)].
  destruct (_ || _); congruence.
Qed.
Lemma with_loops_eq (b : bool) n E : (if b then add_loops n 1 E else E) = with_loops b n E.
Proof. reflexivity. Qed.
Lemma holds_range s d X E : holds s d X E -> in_range (length X) E.
Proof.
  intros (x & e & pairs & w & _ & _ & _ & _ & Hi & _ & _ & ->) ((u, v), q) He; apply in_combine_l in He; apply Hi in He; unfold e_src, e_dst; cbn [fst snd]; exact He.
Qed.

Lemma chosen_same {N G} (choose : G -> N * G) k g l g' : chosen choose k g l g' -> forall l2 g2, chosen choose k g l2 g2 -> l = l2 /\ g' = g2.
Proof.
  induction 1 as [g|k g x g1 l g2 E H IH]; intros l2 g3 H2; inversion H2; subst; [split; reflexivity|].
  match goal with A : choose g = _ |- _ => rewrite E in A; injection A as <- <- end.
  match goal with A : chosen _ _ _ _ _ |- _ => destruct (IH _ _ A) as (-> & ->) end; split; reflexivity.
Qed.
