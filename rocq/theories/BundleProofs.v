From Coq Require Import String QArith Lqa Lia ZifyBool ZifyNat.
From Verif Require Import Prelude BundleModel BundleSpec.
Local Open Scope string_scope.
Local Open Scope Z_scope.
Local Open Scope list_scope.
Local Notation length := List.length.

Lemma bind_ok {A B} (r : result A) (f : A -> result B) b : bind r f = Ok b <-> exists a, r = Ok a /\ f a = Ok b.
Proof. destruct r as [a|e]; cbn; [split; [eauto|intros (a' & [= <-] & H); exact H]|split; [discriminate|intros (a & H & _); discriminate]]. Qed.

Lemma qle_true a b : Qle_bool a b = true <-> (a <= b)%Q. Proof. apply Qle_bool_iff. Qed.
Lemma known_iff a : known a = true <-> In a ["relu"; "gelu"; "tanh"].
Proof.
  unfold known; rewrite !orb_true_iff, !String.eqb_eq; cbn; intuition congruence.
Qed.
Lemma activation_ok e a l : activation e a = Ok l <-> l = Same /\ In a ["relu"; "gelu"; "tanh"].
Proof. unfold activation; rewrite <- known_iff; destruct (known a); split; intros; [injection H as <-; auto|destruct H as [-> _]; auto|discriminate|destruct H; discriminate]. Qed.
Lemma named_iff ps : named_activation ps <-> In (or_else (p_activation ps) "relu") ["relu"; "gelu"; "tanh"].
Proof. unfold named_activation; destruct (p_activation ps); cbn; intuition (try congruence); right; intuition congruence. Qed.
Lemma dropout_ok q l : dropout q = Ok l <-> l = Same /\ (0 <= q <= 1)%Q.
Proof.
  unfold dropout; rewrite <- !qle_true; destruct (Qle_bool 0 q), (Qle_bool q 1); cbn; split; intros;
    try discriminate; try (injection H as <-; auto); destruct H as (-> & H1 & H2); try discriminate; auto.
Qed.
Lemma maybe_dropout_ok q ls : maybe_dropout q = Ok ls <-> (q <= 1)%Q /\ ls = (if Qle_bool q 0 then [] else [Same]).
Proof.
  unfold maybe_dropout; destruct (Qle_bool q 0) eqn:E.
  - apply qle_true in E; split; [intros [= <-]; split; [lra|reflexivity]|intros (_ & ->); reflexivity].
  - assert (~ (q <= 0)%Q) by (rewrite <- qle_true, E; discriminate).
    rewrite bind_ok; split; [intros (l & (-> & Hl)%dropout_ok & [= <-]); split; [lra|reflexivity]|].
    intros (Hq & ->); exists Same; split; [apply dropout_ok; split; [reflexivity|split; lra]|reflexivity].
Qed.
Lemma optimizer_ok a b u : optimizer a b = Ok u <-> (0 <= a)%Q /\ (0 <= b)%Q.
Proof.
  unfold optimizer; rewrite <- !qle_true; destruct (Qle_bool 0 a), (Qle_bool 0 b), u; cbn; intuition discriminate.
Qed.
Lemma or_else_holds {A} (P : A -> Prop) o d : P d -> (P (or_else o d) <-> holds P o).
Proof. unfold holds; destruct o as [a|]; cbn; intros Hd; [split; [intros H a' [= <-]; exact H|intros H; apply H; reflexivity]|split; [intros _ a E; discriminate|auto]]. Qed.
Lemma rates_iff ps a b u : (0 <= a)%Q -> (0 <= b)%Q -> (optimizer (or_else (p_lr ps) a) (or_else (p_decay ps) b) = Ok u <-> rates_fine ps).
Proof. intros Ha Hb; rewrite optimizer_ok; unfold rates_fine; rewrite <- (or_else_holds _ _ a Ha), <- (or_else_holds _ _ b Hb); reflexivity. Qed.

Lemma hidden_list_iff ps l : hidden_list (p_hidden_sizes ps) (p_hidden_dim ps) = Ok l <-> hidden_asked ps l.
Proof.
  split.
  - unfold hidden_list; destruct (p_hidden_sizes ps) as [[h|l'|]|] eqn:E; [intros [= <-]; now apply h_int|intros [= <-]; now apply h_list|discriminate|].
    destruct (p_hidden_dim ps) as [h|] eqn:E'; intros [= <-]; [now apply h_dim|now apply h_default].
  - intros [l' E|h E|h E E'|E E']; unfold hidden_list; rewrite E, ?E'; reflexivity.
Qed.

(* ----- the dense layers ----- *)
Lemma run_app a b s : run (a ++ b) s = (do s' <- run a s; run b s').
Proof. revert s; induction a as [|l a IH]; intros s; cbn; [reflexivity|destruct (apply l s); cbn; [apply IH|reflexivity]]. Qed.
Lemma linear_ok i o s s' : apply (Linear i o) s = Ok s' <-> exists pre, s = pre ++ [i] /\ s' = pre ++ [o].
Proof.
  cbn; destruct (rev s) as [|x r] eqn:E; [split; [discriminate|intros (pre & -> & _); rewrite rev_app_distr in E; discriminate]|].
  assert (Hs : s = rev r ++ [x]) by (rewrite <- (rev_involutive s), E; reflexivity).
  destruct (Nat.eqb_spec x i) as [->|N].
  - split; [intros [= <-]; eauto|intros (pre & Hp & ->); rewrite Hp in Hs; apply app_inj_tail in Hs; destruct Hs as [<- _]; reflexivity].
  - split; [discriminate|intros (pre & Hp & _); rewrite Hp in Hs; apply app_inj_tail in Hs; destruct Hs; congruence].
Qed.
Lemma last_cons {A} (a : A) l d : last (a :: l) d = last l a.
Proof. revert a d; induction l as [|b l IH]; intros a d; [reflexivity|]; change (last (b :: l) d = last (b :: l) a); rewrite !IH; reflexivity. Qed.
Lemma hidden_layers_ok hs : forall w act q ls w',
  hidden_layers w hs act q = Ok (ls, w') ->
  w' = last (map Z.to_nat hs) w /\ dense ls = links (w :: map Z.to_nat hs) /\
  (forall s s', run ls s = Ok s' <-> exists pre, (s = pre ++ [w] /\ hs <> [] /\ s' = pre ++ [w']) \/ (hs = [] /\ s' = s)).
Proof.
  induction hs as [|h hs IH]; intros w act q ls w'; cbn [hidden_layers].
  - intros [= <- <-]; repeat split; cbn; [intros [= <-]; exists []; right; auto|intros (pre & [(_ & [] & _)|(_ & ->)]); reflexivity].
  - destruct (h <=? 0); [discriminate|intros H]; apply bind_ok in H; destruct H as (a & Ha & H); apply activation_ok in Ha; destruct Ha as [-> _].
    apply bind_ok in H; destruct H as (dl & Hd & H); apply maybe_dropout_ok in Hd; destruct Hd as [_ Hd].
    apply bind_ok in H; destruct H as ((ls' & w'') & H & [= <- <-]).
    destruct (IH _ _ _ _ _ H) as (Hw & Hdn & Hr); clear IH.
    split; [rewrite Hw; cbn [map]; rewrite last_cons; reflexivity|].
    split.
    { cbn [map]; change (links (w :: Z.to_nat h :: map Z.to_nat hs)) with ((w, Z.to_nat h) :: links (Z.to_nat h :: map Z.to_nat hs)); rewrite <- Hdn; unfold dense at 1; cbn; f_equal.
      rewrite flat_map_app; destruct (Qle_bool q 0); subst dl; reflexivity. }
    intros s s'.
    assert (Hdl : forall t, run dl t = Ok t) by (intros t; subst dl; destruct (Qle_bool q 0); reflexivity).
    change ((Linear w (Z.to_nat h) :: Same :: dl ++ ls')) with ([Linear w (Z.to_nat h)] ++ Same :: dl ++ ls').
    rewrite run_app, bind_ok; cbn [run]; cbn [apply]; fold (apply (Linear w (Z.to_nat h)) s).
    split.
    + intros (t & Ht & H'); apply bind_ok in Ht; destruct Ht as (t' & Ht & [= <-]).
      change (apply (Linear w (Z.to_nat h)) s = Ok t') in Ht; apply linear_ok in Ht; destruct Ht as (pre & -> & ->).
      cbn [bind] in H'; rewrite run_app, Hdl in H'; cbn [bind] in H'; apply Hr in H'.
      exists pre; left; split; [reflexivity|split; [discriminate|]].
      destruct H' as (pre' & [(E & _ & ->)|(E & ->)]); [apply app_inj_tail in E; destruct E as [<- _]; reflexivity|].
      subst hs; cbn in Hw; subst w''; reflexivity.
    + intros (pre & [(-> & _ & ->)|(E & _)]); [|discriminate].
      exists (pre ++ [Z.to_nat h]); split.
      * assert (E : apply (Linear w (Z.to_nat h)) (pre ++ [w]) = Ok (pre ++ [Z.to_nat h])) by (apply linear_ok; eauto).
        change (bind (apply (Linear w (Z.to_nat h)) (pre ++ [w])) (fun s' => Ok s') = Ok (pre ++ [Z.to_nat h])); rewrite E; reflexivity.
      * cbn [bind]; rewrite run_app, Hdl; cbn [bind]; apply Hr.
        destruct hs as [|h' hs]; [exists pre; right; split; [reflexivity|]; cbn in Hw; subst w''; reflexivity|].
        exists pre; left; repeat split; discriminate.
Qed.
Lemma hidden_layers_iff hs : forall w act q,
  (exists r, hidden_layers w hs act q = Ok r) <-> Forall (fun h => 0 < h) hs /\ (hs = [] \/ In act ["relu"; "gelu"; "tanh"] /\ (q <= 1)%Q).
Proof.
  induction hs as [|h hs IH]; intros w act q; [cbn; split; [auto|eauto]|].
  cbn [hidden_layers]; destruct (h <=? 0) eqn:E.
  - split; [intros (? & H); discriminate|intros (H & _); inversion H; lia].
  - split.
    + intros (r & H); apply bind_ok in H; destruct H as (a & Ha & H); apply activation_ok in Ha; destruct Ha as [-> Ha].
      apply bind_ok in H; destruct H as (dl & Hd & H); apply maybe_dropout_ok in Hd; destruct Hd as [Hq Hd].
      apply bind_ok in H; destruct H as (p & H & _).
      destruct (proj1 (IH (Z.to_nat h) act q) (ex_intro _ _ H)) as [F _].
      split; [constructor; [lia|exact F]|right; auto].
    + intros (F & [E'|(Ha & Hq)]); [discriminate|]; inversion F; subst.
      assert (Hx : exists r, hidden_layers (Z.to_nat h) hs act q = Ok r) by (apply IH; auto).
      destruct Hx as ((ls & w') & Hx).
      assert (Hact : activation InductiveValidationError act = Ok Same) by (apply activation_ok; auto).
      destruct (maybe_dropout q) as [dl|e] eqn:Hd.
      * eexists; rewrite Hact; cbn [bind]; rewrite Hx; reflexivity.
      * exfalso; assert (maybe_dropout q = Ok (if Qle_bool q 0 then [] else [Same])) by (apply maybe_dropout_ok; auto); congruence.
Qed.

Definition sizes_asked (force : bool) ps hs := if force then hs = [] else hidden_asked ps hs.
Definition dense_fine ps hs := Forall (fun h => 0 < h) hs /\ (hs = [] \/ named_activation ps /\ holds (fun q => q <= 1)%Q (p_dropout ps)) /\ rates_fine ps.
Lemma input_dim_rows n r fl ids : (1 <= n)%nat -> r <> [] -> infer_input_dim (Tensor (n :: r) fl ids) = Ok (row_size r).
Proof. intros Hn Hr; destruct r as [|a r]; [congruence|]; cbn; destruct (Nat.eqb_spec n 0); [lia|reflexivity]. Qed.
Lemma asked_iff (force : bool) ps hs : (if force then Ok [] else hidden_list (p_hidden_sizes ps) (p_hidden_dim ps)) = Ok hs <-> sizes_asked force ps hs.
Proof. destruct force; cbn; [split; [intros [= <-]; reflexivity|intros ->; reflexivity]|apply hidden_list_iff]. Qed.
Lemma mlp_iff force feats n r fl ids k ps : (1 <= n)%nat -> r <> [] ->
  (exists net, build_mlp force feats (Tensor (n :: r) fl ids) k ps = Ok net) <-> exists hs, sizes_asked force ps hs /\ dense_fine ps hs.
Proof.
  intros Hn Hr; unfold build_mlp; rewrite (input_dim_rows n r fl ids Hn Hr); cbn [bind].
  assert (Hq1 : forall act, (In act ["relu"; "gelu"; "tanh"] /\ (or_else (p_dropout ps) (1 # 10) <= 1)%Q) <-> (In act ["relu"; "gelu"; "tanh"] /\ holds (fun q => q <= 1)%Q (p_dropout ps))).
  { intros act; rewrite (or_else_holds (fun q => q <= 1)%Q) by (cbn; lra); reflexivity. }
  split.
  - intros (net & H); apply bind_ok in H; destruct H as (hs & Hs & H); apply asked_iff in Hs.
    apply bind_ok in H; destruct H as ((ls & w) & Hl & H); apply bind_ok in H; destruct H as (u & Hu & _).
    apply rates_iff in Hu; [|lra|lra].
    exists hs; split; [exact Hs|].
    destruct (proj1 (hidden_layers_iff _ _ _ _) (ex_intro _ _ Hl)) as [F G].
    split; [exact F|split; [|exact Hu]]; rewrite Hq1, <- named_iff in G; exact G.
  - intros (hs & Hs & F & G & Hu); apply asked_iff in Hs; rewrite Hs; cbn [bind].
    assert (Hl : exists r0, hidden_layers (row_size r) hs (or_else (p_activation ps) "relu") (or_else (p_dropout ps) (1 # 10)) = Ok r0)
      by (apply hidden_layers_iff; split; [exact F|rewrite Hq1, <- named_iff; exact G]).
    destruct Hl as ((ls & w) & ->); cbn [bind].
    assert (E : optimizer (or_else (p_lr ps) (1 # 1000)%Q) (or_else (p_decay ps) 0%Q) = Ok tt) by (apply rates_iff; [lra|lra|exact Hu]).
    rewrite E; eexists; reflexivity.
Qed.
Lemma dense_app a b : dense (a ++ b) = dense a ++ dense b. Proof. apply flat_map_app. Qed.
Lemma links_snoc l : forall a b, links ((a :: l) ++ [b]) = links (a :: l) ++ [(last l a, b)].
Proof.
  induction l as [|x l IH]; intros a b; [reflexivity|].
  change ((a, x) :: links ((x :: l) ++ [b]) = (a, x) :: links (x :: l) ++ [(last (x :: l) a, b)]).
  rewrite IH, last_cons; reflexivity.
Qed.
Lemma mlp_net force (feats : bool) n r fl ids k ps net : (1 <= n)%nat -> r <> [] ->
  build_mlp force feats (Tensor (n :: r) fl ids) k ps = Ok net ->
  exists hs, sizes_asked force ps hs /\ dense_fine ps hs /\
    dense (layers_of net) = links (row_size r :: map Z.to_nat hs ++ [k]) /\
    (forall s fl' ids' o, forward net (Tensor s fl' ids') = Ok o <->
      exists pre, s = pre ++ [row_size r] /\ logits o = pre ++ [k] /\ feat o = if feats then Some (pre ++ [last (map Z.to_nat hs) (row_size r)]) else None).
Proof.
  intros Hn Hr H0.
  assert (Hx : exists hs, sizes_asked force ps hs /\ dense_fine ps hs) by (apply (mlp_iff force feats n r fl ids k ps Hn Hr); eauto).
  unfold build_mlp in H0; rewrite (input_dim_rows n r fl ids Hn Hr) in H0; cbn [bind] in H0.
  apply bind_ok in H0; destruct H0 as (hs & Hs & H0).
  apply bind_ok in H0; destruct H0 as ((ls & w) & Hl & H0); apply bind_ok in H0; destruct H0 as (u & _ & [= <-]).
  apply asked_iff in Hs.
  exists hs; split; [exact Hs|split].
  { destruct Hx as (hs' & Hs' & D); assert (hs' = hs) as <-; [|exact D].
    apply asked_iff in Hs, Hs'; congruence. }
  destruct (hidden_layers_ok _ _ _ _ _ _ Hl) as (Hw & Hd & Hf); clear Hl.
  split.
  { assert (E : dense (ls ++ [Linear w k]) = links (row_size r :: map Z.to_nat hs ++ [k])).
    { rewrite dense_app, Hd, Hw; symmetry; apply (links_snoc (map Z.to_nat hs) (row_size r) k). }
    destruct feats; exact E. }
  assert (K : forall s f l, (run ls s = Ok f /\ run [Linear w k] f = Ok l) <-> exists pre, s = pre ++ [row_size r] /\ f = pre ++ [w] /\ l = pre ++ [k]).
  { intros s f l; rewrite Hf; cbn [run]; split.
    - intros ((pre & Hp) & Hk); apply bind_ok in Hk; destruct Hk as (s' & Hk & [= ->]); apply linear_ok in Hk; destruct Hk as (pre' & -> & ->).
      destruct Hp as [(-> & _ & E)|(E & <-)].
      + apply app_inj_tail in E; destruct E as [-> _]; exists pre; auto.
      + subst hs; cbn in Hw; subst w; exists pre'; auto.
    - intros (pre & -> & -> & ->); split.
      + destruct hs; [exists []; right; split; [reflexivity|cbn in Hw; subst w; reflexivity]|exists pre; left; repeat split; discriminate].
      + apply bind_ok; exists (pre ++ [k]); split; [apply linear_ok; eauto|reflexivity]. }
  intros s fl' ids' o; destruct feats; cbn [forward].
  - split.
    + intros H; apply bind_ok in H; destruct H as (f & H1 & H); apply bind_ok in H; destruct H as (l & H2 & [= <-]).
      destruct (proj1 (K s f l) (conj H1 H2)) as (pre & -> & -> & ->); exists pre; subst w; auto.
    + intros (pre & -> & El & Ef); destruct (proj2 (K (pre ++ [row_size r]) (pre ++ [w]) (pre ++ [k]))) as [H1 H2]; [eauto|].
      rewrite H1; cbn [bind]; rewrite H2; cbn [bind]; rewrite Hw; destruct o as [l f]; cbn in El, Ef; subst; reflexivity.
  - split.
    + intros H; apply bind_ok in H; destruct H as (l & H & [= <-]); rewrite run_app in H; apply bind_ok in H; destruct H as (f & H1 & H2).
      destruct (proj1 (K s f l) (conj H1 H2)) as (pre & -> & -> & ->); exists pre; auto.
    + intros (pre & -> & El & Ef); destruct (proj2 (K (pre ++ [row_size r]) (pre ++ [w]) (pre ++ [k]))) as [H1 H2]; [eauto|].
      rewrite run_app, H1; cbn [bind]; rewrite H2; cbn [bind]; destruct o as [l f]; cbn in El, Ef; subst; reflexivity.
Qed.

(* ----- convolutions ----- *)
Definition cnn_fine (ps : params) (chs : list nat) (fc : Z) :=
  (chs = [] /\ fc <= 0 \/ named_activation ps) /\ (fc <= 0 \/ holds (fun q => q <= 1)%Q (p_dropout ps)) /\ rates_fine ps.
Lemma convs_iff d chs : forall i k act, (exists r, convs d i chs k act = Ok r) <-> (chs = [] \/ In act ["relu"; "gelu"; "tanh"]).
Proof.
  induction chs as [|c chs IH]; intros i k act; [cbn; split; [auto|eauto]|cbn [convs]; split].
  - intros (r & H); apply bind_ok in H; destruct H as (a & Ha & _); apply activation_ok in Ha; right; apply Ha.
  - intros [E|Ha]; [discriminate|].
    assert (E : activation SupervisedError act = Ok Same) by (apply activation_ok; auto).
    rewrite E; cbn [bind]; destruct (proj2 (IH c k act) (or_intror Ha)) as ((ls & w) & ->); eexists; reflexivity.
Qed.
Lemma convs_width d chs : forall i k act ls w, convs d i chs k act = Ok (ls, w) -> w = last chs i.
Proof.
  induction chs as [|c chs IH]; intros i k act ls w; cbn [convs]; [intros [= _ <-]; reflexivity|].
  intros H; apply bind_ok in H; destruct H as (a & _ & H); apply bind_ok in H; destruct H as ((ls' & w') & H & [= _ <-]).
  rewrite last_cons; eapply IH; exact H.
Qed.
Lemma windows k sp : (1 <= k)%nat -> Forall (fun x => 1 <= x)%nat sp ->
  exists sp', map_r (window k (k / 2)) sp = Ok sp' /\ length sp' = length sp /\ Forall (fun x => 1 <= x)%nat sp'.
Proof.
  intros Hk F; induction F as [|x sp Hx F (sp' & E & Hl & F')]; [exists []; auto|].
  cbn [map_r]; unfold window at 1.
  assert (Hd : (k = 2 * (k / 2) + k mod 2)%nat) by (apply Nat.div_mod; lia).
  assert (Hm : (k mod 2 < 2)%nat) by (apply Nat.mod_upper_bound; lia).
  destruct (Nat.eqb_spec k 0); [lia|cbn [orb]]; destruct (Nat.ltb_spec (x + 2 * (k / 2)) k); [lia|].
  cbn [bind]; rewrite E; cbn [bind]; eexists; repeat split; cbn; [lia|constructor; [lia|exact F']].
Qed.
Lemma conv_batch d i o k p n sp : length sp = d -> apply (Conv d i o k p) (n :: i :: sp) = (do sp' <- map_r (window k p) sp; Ok (n :: o :: sp')).
Proof.
  intros Hl; unfold apply; change (length (n :: i :: sp)) with (S (S (length sp))); rewrite Hl.
  replace (Nat.eqb (S (S d)) (d + 2)) with true by (symmetry; apply Nat.eqb_eq; lia); rewrite Nat.eqb_refl; reflexivity.
Qed.
Lemma convs_run d chs : forall i k act ls w, convs d i chs k act = Ok (ls, w) -> (1 <= k)%nat ->
  forall n sp, length sp = d -> Forall (fun x => 1 <= x)%nat sp -> exists sp', run ls (n :: i :: sp) = Ok (n :: w :: sp') /\ length sp' = d.
Proof.
  induction chs as [|c chs IH]; intros i k act ls w; cbn [convs].
  - intros [= <- <-] _ n sp Hl _; exists sp; auto.
  - intros H Hk n sp Hl F; apply bind_ok in H; destruct H as (a & Ha & H); apply activation_ok in Ha; destruct Ha as [-> _].
    apply bind_ok in H; destruct H as ((ls' & w') & H & [= <- <-]).
    destruct (windows k sp Hk F) as (sp' & E & Hl' & F').
    destruct (IH _ _ _ _ _ H Hk n sp' ltac:(lia) F') as (sp'' & E' & Hl'').
    exists sp''; split; [|exact Hl''].
    change (run (Conv d i c k (k / 2) :: Same :: ls') (n :: i :: sp) = Ok (n :: w' :: sp'')); cbn [run]; rewrite (conv_batch d i c k (k / 2) n sp Hl), E; cbn [bind apply]; exact E'.
Qed.
Lemma pooled d n w sp : length sp = d -> run [Pool d; Flatten] (n :: w :: sp) = Ok [n; w].
Proof.
  intros Hl; assert (E : apply (Pool d) (n :: w :: sp) = Ok (n :: w :: repeat 1%nat d)).
  { unfold apply; change (length (n :: w :: sp)) with (S (S (length sp))); rewrite Hl.
    replace (Nat.eqb (S (S d)) (d + 2)) with true by (symmetry; apply Nat.eqb_eq; lia); reflexivity. }
  assert (P : prod (w :: repeat 1%nat d) = w) by (unfold prod; cbn [fold_right]; clear; induction d as [|d IH]; cbn in *; lia).
  cbn [run]; rewrite E; cbn [bind apply]; rewrite P; reflexivity.
Qed.
Lemma head_iff w fc act q k : (exists hd, cnn_head w fc act q k = Ok hd) <-> (fc <= 0 \/ In act ["relu"; "gelu"; "tanh"] /\ (q <= 1)%Q).
Proof.
  unfold cnn_head; destruct (Z.ltb_spec 0 fc).
  - split.
    + intros (hd & E); apply bind_ok in E; destruct E as (a & Ha & E); apply bind_ok in E; destruct E as (dl & Hd & _).
      apply activation_ok in Ha; apply maybe_dropout_ok in Hd; right; tauto.
    + intros [E|(Ha & Hq)]; [lia|].
      assert (E1 : activation SupervisedError act = Ok Same) by (apply activation_ok; auto).
      assert (E2 : maybe_dropout q = Ok (if Qle_bool q 0 then [] else [Same])) by (apply maybe_dropout_ok; auto).
      rewrite E1; cbn [bind]; rewrite E2; eexists; reflexivity.
  - split; [auto|eauto].
Qed.
Lemma head_run w fc act q k hd : cnn_head w fc act q k = Ok hd -> forall n, run hd [n; w] = Ok [n; k].
Proof.
  unfold cnn_head; destruct (Z.ltb_spec 0 fc); intros E n.
  - apply bind_ok in E; destruct E as (a & Ha & E); apply bind_ok in E; destruct E as (dl & Hd & [= <-]).
    apply activation_ok in Ha; destruct Ha as [-> _]; apply maybe_dropout_ok in Hd; destruct Hd as [_ ->].
    destruct (Qle_bool q 0); cbn [run app apply rev bind]; rewrite !Nat.eqb_refl; cbn [run app apply rev bind]; rewrite !Nat.eqb_refl; reflexivity.
  - injection E as <-; cbn [run apply rev app]; rewrite Nat.eqb_refl; reflexivity.
Qed.
Lemma cnn_iff d i chs k0 ps fc (q0 : Q) k (a b : Q) (mk : list layer -> list layer -> net) : (q0 <= 1)%Q -> (0 <= a)%Q -> (0 <= b)%Q ->
  (exists n, (do ' (ls, w) <- convs d i chs k0 (or_else (p_activation ps) "relu");
    do hd <- cnn_head w fc (or_else (p_activation ps) "relu") (or_else (p_dropout ps) q0) k;
    do _ <- optimizer (or_else (p_lr ps) a) (or_else (p_decay ps) b);
    Ok (mk ls hd)) = Ok n) <-> cnn_fine ps chs fc.
Proof.
  intros Hq Ha Hb; unfold cnn_fine.
  pose proof (or_else_holds (fun q => q <= 1)%Q (p_dropout ps) q0 Hq) as Ho.
  split.
  - intros (n & H); apply bind_ok in H; destruct H as ((ls & w) & H1 & H); apply bind_ok in H; destruct H as (hd & H2 & H).
    apply bind_ok in H; destruct H as (u & H3 & _); apply rates_iff in H3; [|exact Ha|exact Hb].
    pose proof (proj1 (convs_iff _ _ _ _ _) (ex_intro _ _ H1)) as C1; pose proof (proj1 (head_iff _ _ _ _ _) (ex_intro _ _ H2)) as C2.
    rewrite <- named_iff in C1, C2; rewrite Ho in C2; tauto.
  - intros (C1 & C2 & C3).
    destruct (proj2 (convs_iff d chs i k0 (or_else (p_activation ps) "relu"))) as ((ls & w) & E1); [rewrite <- named_iff; tauto|].
    destruct (proj2 (head_iff w fc (or_else (p_activation ps) "relu") (or_else (p_dropout ps) q0) k)) as (hd & E2); [rewrite <- named_iff, Ho; destruct (Z.le_gt_cases fc 0); [auto|right]; split; [destruct C1 as [[_ C1]|C1]; [lia|exact C1]|destruct C2 as [C2|C2]; [lia|exact C2]]|].
    assert (E3 : optimizer (or_else (p_lr ps) a) (or_else (p_decay ps) b) = Ok tt) by (apply rates_iff; assumption).
    exists (mk ls hd); rewrite E1; cbn [bind]; rewrite E2; cbn [bind]; rewrite E3; reflexivity.
Qed.

(* ----- text ----- *)
Lemma text_conv_ok i f n l k : (1 <= k)%nat -> (k <= l)%nat -> text_conv i f [n; i; l] k = Ok [n; f].
Proof.
  intros H1 H2; unfold text_conv; rewrite (conv_batch 1 i f k 0 n [l] eq_refl); cbn [map_r]; unfold window.
  destruct (Nat.eqb_spec k 0); [lia|]; destruct (Nat.ltb_spec (l + 2 * 0) k); [lia|]; reflexivity.
Qed.
Lemma text_convs_ok i f n l ks : Forall (fun k => 1 <= k <= l)%nat ks -> map_r (text_conv i f [n; i; l]) ks = Ok (repeat [n; f] (length ks)).
Proof. intros F; induction F as [|k ks [H1 H2] F IH]; [reflexivity|]; cbn [map_r]; rewrite (text_conv_ok i f n l k H1 H2); cbn [bind]; rewrite IH; reflexivity. Qed.
Lemma text_ok i f ks k n l : ks <> [] -> Forall (fun k => 1 <= k <= l)%nat ks -> text_forward i f ks k [n; i; l] = Ok [n; k].
Proof.
  intros Hk F; unfold text_forward; rewrite (text_convs_ok i f n l ks F); cbn [bind].
  assert (E : fold_right Nat.add 0%nat (map (fun o : list nat => nth 1 o 0%nat) (repeat [n; f] (length ks))) = (f * length ks)%nat)
    by (clear; induction ks as [|x ks IH]; cbn in *; lia).
  rewrite E; destruct ks as [|x ks]; [congruence|]; cbn [length repeat nth].
  apply linear_ok; exists [n]; auto.
Qed.
Lemma text_wrong i f ks k n c l : ks <> [] -> c <> i -> text_forward i f ks k [n; c; l] = Err RuntimeError.
Proof.
  intros Hk Hc; unfold text_forward; destruct ks as [|x ks]; [congruence|]; cbn [map_r]; unfold text_conv at 1; cbn.
  destruct (Nat.eqb_spec c i); [congruence|reflexivity].
Qed.
Lemma text_flat i f ks k n l : ks <> [] -> forall s, text_forward i f ks k [n; l] <> Ok s.
Proof.
  intros Hk s; unfold text_forward; destruct ks as [|x ks]; [congruence|]; cbn [map_r].
  enough (E : exists e, text_conv i f [n; l] x = Err e) by (destruct E as (e & ->); discriminate).
  unfold text_conv; cbn; destruct (Nat.eqb n i); [|eexists; reflexivity].
  unfold window; destruct (_ || _); cbn; eexists; reflexivity.
Qed.

(* ----- LSTM ----- *)
Lemma max_of_ok l m : max_of l = Ok m -> In m l /\ forall i, In i l -> i <= m.
Proof.
  destruct l as [|a l]; [discriminate|]; cbn [max_of]; intros [= E].
  assert (H : forall l a, (In (fold_left Z.max l a) (a :: l)) /\ (forall i, In i (a :: l) -> i <= fold_left Z.max l a)).
  { clear; induction l as [|b l IH]; intros a; [cbn; split; [auto|intros i [<-|[]]; lia]|].
    cbn [fold_left]; destruct (IH (Z.max a b)) as [H1 H2]; split.
    - destruct H1 as [E|H1]; [|right; right; exact H1].
      rewrite <- E; destruct (Z.max_spec a b) as [[_ ->]|[_ ->]]; [right; left|left]; reflexivity.
    - intros i [<-|[<-|Hi]]; [specialize (H2 (Z.max a b) (or_introl eq_refl)); lia|specialize (H2 (Z.max a b) (or_introl eq_refl)); lia|apply H2; right; exact Hi]. }
  destruct (H l a) as [H1 H2]; rewrite E in H1, H2; auto.
Qed.
Lemma max_of_some l : l <> [] -> exists m, max_of l = Ok m.
Proof. destruct l; [congruence|eexists; reflexivity]. Qed.
Lemma lstm_ids v e w (both : bool) k (feats : bool) n l fl ids o :
  lstm_forward v e w both k feats (Tensor [n; l] fl ids) = Ok o <->
  (forall i, In i ids -> 0 <= i < Z.of_nat v) /\ (1 <= l)%nat /\ logits o = [n; k] /\ feat o = (if feats then Some [n; if both then (2 * w)%nat else w] else None).
Proof.
  unfold lstm_forward; cbn [length Nat.eqb andb].
  destruct (forallb _ ids) eqn:E.
  - assert (F : forall i, In i ids -> 0 <= i < Z.of_nat v) by (intros i Hi; rewrite forallb_forall in E; specialize (E i Hi); lia).
    cbn [bind firstn nth]; destruct (Nat.eqb_spec l 0) as [->|N]; [split; [discriminate|intros (_ & H & _); lia]|].
    rewrite andb_false_r; cbn [app].
    assert (El : apply (Linear (if both then (w * 2)%nat else w) k) [n; if both then (w * 2)%nat else w] = Ok [n; k]) by (apply linear_ok; exists [n]; auto).
    rewrite El; cbn [bind]; replace (2 * w)%nat with (w * 2)%nat by lia.
    split; [intros [= <-]; cbn; repeat split; [apply F; assumption|apply F; assumption|lia]|].
    intros (_ & _ & H1 & H2); destruct o as [a b]; cbn in H1, H2; subst; reflexivity.
  - split; [discriminate|]; intros (F & _); exfalso.
    assert (forallb (fun i => (0 <=? i) && (i <? Z.of_nat v)) ids = true) by (apply forallb_forall; intros i Hi; specialize (F i Hi); lia); congruence.
Qed.
Lemma lstm_embedded v e w (both : bool) k (feats : bool) n l fl ids o :
  lstm_forward v e w both k feats (Tensor [n; l; e] fl ids) = Ok o <->
  (1 <= l)%nat /\ logits o = [n; k] /\ feat o = (if feats then Some [n; if both then (2 * w)%nat else w] else None).
Proof.
  unfold lstm_forward; cbn [length Nat.eqb andb last]; rewrite Nat.eqb_refl.
  cbn [bind firstn nth]; destruct (Nat.eqb_spec l 0) as [->|N]; [split; [discriminate|intros (H & _); lia]|].
  rewrite andb_false_r; cbn [app].
  assert (El : apply (Linear (if both then (w * 2)%nat else w) k) [n; if both then (w * 2)%nat else w] = Ok [n; k]) by (apply linear_ok; exists [n]; auto).
  rewrite El; cbn [bind]; replace (2 * w)%nat with (w * 2)%nat by lia.
  split; [intros [= <-]; cbn; repeat split; lia|].
  intros (_ & H1 & H2); destruct o as [a b]; cbn in H1, H2; subst; reflexivity.
Qed.

(* ----- GraphSAGE ----- *)
Lemma sage_ok mids : forall d k q s f l, sage_layers (d :: mids ++ [k]) q s = Ok (f, l) <->
  exists pre, s = pre ++ [d] /\ f = pre ++ [last mids d] /\ l = pre ++ [k] /\ (mids = [] \/ (0 <= q <= 1)%Q).
Proof.
  induction mids as [|m mids IH]; intros d k q s f l.
  - cbn [app sage_layers last]; split.
    + intros H; apply bind_ok in H; destruct H as (s' & H & [= <- <-]); apply linear_ok in H; destruct H as (pre & -> & ->); eauto 8.
    + intros (pre & -> & -> & -> & _).
      assert (E : apply (Linear d k) (pre ++ [d]) = Ok (pre ++ [k])) by (apply linear_ok; eauto).
      rewrite E; reflexivity.
  - assert (E : sage_layers (d :: (m :: mids) ++ [k]) q s = (do s' <- apply (Linear d m) s; do _ <- dropout q; sage_layers (m :: mids ++ [k]) q s'))
      by (cbn [app sage_layers]; destruct (mids ++ [k]) eqn:E; [destruct mids; discriminate|reflexivity]).
    rewrite E; clear E; rewrite last_cons; split.
    + intros H; apply bind_ok in H; destruct H as (s' & H1 & H); apply linear_ok in H1; destruct H1 as (pre & -> & ->).
      apply bind_ok in H; destruct H as (dl & Hd & H); apply dropout_ok in Hd; destruct Hd as [_ Hd].
      apply IH in H; destruct H as (pre' & Ep & -> & -> & _); apply app_inj_tail in Ep; destruct Ep as [<- _]; eauto 8.
    + intros (pre & -> & -> & -> & [H|Hq]); [discriminate|].
      assert (E : apply (Linear d m) (pre ++ [d]) = Ok (pre ++ [m])) by (apply linear_ok; eauto).
      assert (E2 : dropout q = Ok Same) by (apply dropout_ok; auto).
      rewrite E; cbn [bind]; rewrite E2; cbn [bind]; apply IH; eauto 8.
Qed.

(* ----- the factory ----- *)
Section Built.
Context {W gen : Type} (seeded : Z -> gen) (draw : net -> gen -> W * gen) (pretrained : string -> sample -> nat -> params -> result net).
Lemma backend_iff b : torch_backend b <-> (let b := match b with None => "auto" | Some s => if String.eqb s "" then "auto" else s end in
  if String.eqb b "auto" then "torch" else b) = "torch".
Proof.
  unfold torch_backend; destruct b as [s|]; cbn; [|split; auto].
  destruct (String.eqb_spec s "") as [E|E]; [subst; cbn; split; auto|].
  destruct (String.eqb_spec s "auto") as [E'|E']; [subst; cbn; split; auto|].
  split; [intros [H|[H|[H|[H|[]]]]]; congruence|intros ->; auto].
Qed.
Lemma build_iff id backend ps x0 classes seed ema g b g' :
  build W gen seeded draw pretrained id backend ps x0 classes seed ema g = Ok (b, g') <->
  torch_backend backend /\ take_sample x0 <> Strange /\ exists c n, classes = Some c /\ 0 < c /\ dispatch pretrained id (take_sample x0) (Z.to_nat c) ps = Ok n /\
    b = {| b_net := n; b_weights := fst (draw n (seeded seed)); b_ema := if ema then Some (fst (draw n (seeded seed))) else None |} /\ g' = snd (draw n (seeded seed)).
Proof.
  unfold build; rewrite backend_iff; set (bk := (if String.eqb _ "auto" then _ else _)).
  destruct (String.eqb_spec bk "torch") as [E|E]; cbn [negb]; [|split; [discriminate|intros (H & _); congruence]].
  assert (K : forall (x : sample), x <> Strange -> forall r : result (bundle W * gen), match x with Strange => Err InductiveValidationError | _ => r end = r)
    by (intros [? ? ?|?|] H r; congruence).
  assert (D : take_sample x0 = Strange \/ take_sample x0 <> Strange) by (destruct (take_sample x0); [right|right|left]; congruence).
  destruct D as [D|D].
  - rewrite D; split; [discriminate|intros (_ & H & _); congruence].
  - rewrite (K _ D); destruct classes as [c|]; [|split; [discriminate|intros (_ & _ & c & n & H & _); discriminate]].
    destruct (Z.leb_spec c 0); [split; [discriminate|intros (_ & _ & c' & n & [= <-] & H1 & _); lia]|].
    rewrite bind_ok; split.
    + intros (n & Hn & H1); split; [exact E|split; [exact D|]]; exists c, n; destruct (draw n (seeded seed)) as [w g1] eqn:Ed.
      injection H1 as <- <-; repeat split; auto.
    + intros (_ & _ & c' & n & [= <-] & _ & Hn & -> & ->); exists n; split; [exact Hn|]; destruct (draw n (seeded seed)); reflexivity.
Qed.
Lemma build_refuses id backend ps x0 classes seed ema g :
  ~ torch_backend backend \/ take_sample x0 = Strange \/ holds (fun c => c <= 0) classes ->
  build W gen seeded draw pretrained id backend ps x0 classes seed ema g = Err InductiveValidationError.
Proof.
  unfold build; rewrite backend_iff; set (bk := (if String.eqb _ "auto" then _ else _)).
  destruct (String.eqb_spec bk "torch") as [E|E]; cbn [negb]; [|reflexivity].
  intros [H|H]; [congruence|].
  destruct (take_sample x0) eqn:Ex; [destruct H as [H|H]; [discriminate|]|destruct H as [H|H]; [discriminate|]|reflexivity];
  (destruct classes as [c|]; [|reflexivity]; specialize (H c eq_refl); cbn beta in H; destruct (Z.leb_spec c 0); [reflexivity|lia]).
Qed.
End Built.
Lemma take_rows n r fl ids : (1 <= n)%nat -> take_sample (Tensor (n :: r) fl ids) = Tensor (1%nat :: r) fl (if Nat.ltb 1 n then firstn (row_size r) ids else ids).
Proof. intros Hn; unfold take_sample; destruct (Nat.ltb_spec 1 n); [reflexivity|]; replace n with 1%nat by lia; reflexivity. Qed.
