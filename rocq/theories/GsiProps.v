(* C158: the GraphSAGE classifier. *)
From Coq Require Import String QArith Lia ZifyBool ZifyNat.
From Verif Require Import Prelude ListFacts BundleProofs GsiModel GsiSpec GsiProofs.
Local Open Scope string_scope.
Local Open Scope Z_scope.
Local Open Scope list_scope.
Local Notation length := List.length.

(* C158.  Hidden widths: a non-empty list is taken as it is when its numbers are positive and the number of layers, if given, is one more than
   its length; otherwise (nothing or an empty list) there are as many equal layers as asked for; other values are refused. *)
Theorem C158_make hidden sizes layers act epochs seed batch nb :
  (forall l, (sizes = SSeq l \/ exists h, sizes = SInt h /\ l = [h]) -> l <> [] ->
    (((forall h, In h l -> 0 < h) /\ (forall n, layers = Some n -> n = Z.of_nat (length l) + 1)) -> exists c, make hidden sizes layers act epochs seed batch nb = Ok c /\
       (forall w k, layer_sizes c w k = Z.of_nat w :: l ++ [k]) /\ c_epochs c = epochs /\ c_seed c = seed /\ c_activation c = act) /\
    (~ ((forall h, In h l -> 0 < h) /\ (forall n, layers = Some n -> n = Z.of_nat (length l) + 1)) -> make hidden sizes layers act epochs seed batch nb = Err ValueError)) /\
  (sizes = SNone \/ sizes = SSeq [] -> exists c, make hidden sizes layers act epochs seed batch nb = Ok c /\
     (forall w k, layer_sizes c w k = Z.of_nat w :: repeat (or_else 128 hidden) (Z.to_nat (or_else 2 layers - 1)) ++ [k]) /\ c_epochs c = epochs /\ c_seed c = seed /\ c_activation c = act) /\
  (sizes = SOther -> make hidden sizes layers act epochs seed batch nb = Err ValueError).
Proof.
  split; [|split].
  - intros l Hs Hl; assert (En : normalize sizes = Ok (Some l)) by (destruct Hs as [->|(h & -> & ->)]; reflexivity).
    unfold make; rewrite En; cbn [bind]; destruct l as [|a r]; [destruct (Hl eq_refl)|].
    assert (P : existsb (fun h => h <=? 0) (a :: r) = false <-> forall h, In h (a :: r) -> 0 < h).
    { split.
      - intros E h Hh; destruct (Z.leb_spec h 0) as [H|H]; [|exact H]; exfalso; assert (T : existsb (fun h => h <=? 0) (a :: r) = true) by (apply existsb_exists; exists h; split; [exact Hh|lia]); congruence.
      - intros H; destruct (existsb (fun h => h <=? 0) (a :: r)) eqn:E; [|reflexivity]; apply existsb_exists in E; destruct E as (h & Hh & E); specialize (H h Hh); lia. }
    assert (L : match layers with Some n => negb (n =? Z.of_nat (length (a :: r)) + 1) | None => false end = false <-> forall n, layers = Some n -> n = Z.of_nat (length (a :: r)) + 1).
    { destruct layers as [n|]; [|split; [discriminate|reflexivity]]; split; [intros E n' [= <-]; destruct (Z.eqb_spec n (Z.of_nat (length (a :: r)) + 1)); [assumption|discriminate]|].
      intros H; rewrite (H n eq_refl), Z.eqb_refl; reflexivity. }
    destruct (existsb (fun h => h <=? 0) (a :: r)) eqn:E1.
    + split; [intros (H & _); apply P in H; discriminate|reflexivity].
    + destruct (match layers with Some n => _ | None => false end) eqn:E2.
      * split; [intros (_ & H); apply L in H; discriminate|reflexivity].
      * split; [intros _; eexists; split; [reflexivity|split; [reflexivity|repeat split]]|intros H; destruct H; split; [apply P|apply L]; reflexivity].
  - intros Hs; assert (En : normalize sizes = Ok None \/ normalize sizes = Ok (Some [])) by (destruct Hs as [-> | ->]; [left|right]; reflexivity).
    unfold make; destruct En as [-> | ->]; cbn [bind]; (eexists; split; [reflexivity|split; [intros w k; unfold layer_sizes; cbn; reflexivity|repeat split]]).
  - intros ->; reflexivity.
Qed.

Section Classifier.
Context (act : string -> Q -> Q) (softmax : list Q -> list Q) (argmax : list Q -> nat) (lower : string -> string) (gen : Type) (seeded : Z -> gen).
Context (init : list Z -> gen -> list layer * gen) (epoch : (Q -> Q) -> net_in -> list Z -> (list layer * gen) -> list layer * gen).
Notation fit := (fit act lower gen seeded init epoch).
Notation predict := (predict softmax argmax gen).
Notation predict_proba := (predict_proba softmax gen).
Notation state := (state gen).

(* C158.  A fit succeeds exactly for a graph with features in two dimensions, edges in two rows, one label per node and at least one node, a
   known activation and no negative width; if there is any training, edges must be between nodes and labels not negative (or -100, which the
   loss ignores).  It reports the nodes, the features and one class more than the largest label. *)
Theorem C158_fit c X y (st : state) n w k : snd (fit c X y st) = Ok (n, w, k) <->
  exists rows e l, graph_input X w rows e /\ n = length rows /\ y = Y1 l /\ length l = length rows /\ one_above k l /\ 0 <= k /\ known lower (c_activation c) /\ no_negative c /\
    (0 < c_epochs c -> ends_in n e /\ forall x, In x l -> 0 <= x \/ x = -100).
Proof.
  unfold GsiModel.fit; cbv zeta; destruct (coerce X false) as [d|er] eqn:Ec.
  2: { split; [discriminate|]; intros (rows & e & l & G & _); rewrite (coerce_dict _ _ _ _ G) in Ec; discriminate. }
  pose proof (proj1 (coerce_strict X d) Ec) as Gd.
  assert (U : forall w rows e, graph_input X w rows e -> w = n_w d /\ rows = n_rows d /\ e = n_edges d).
  { intros w' rows e G; rewrite (coerce_dict _ _ _ _ G) in Ec; injection Ec as <-; repeat split. }
  destruct y as [l|]; [|split; [discriminate|intros (rows & e & l & _ & _ & [=] & _)]].
  destruct (Nat.eqb_spec (length l) (length (n_rows d))) as [El|El]; cbn [negb].
  2: { split; [discriminate|]; intros (rows & e & l' & G & _ & [= <-] & H & _); destruct (U _ _ _ G) as (_ & -> & _); contradiction. }
  destruct l as [|l0 lr]; [split; [discriminate|intros (rows & e & l' & _ & _ & [= <-] & _ & (HH & _) & _); destruct HH]|].
  set (k0 := maxl l0 lr + 1); assert (K0 : one_above k0 (l0 :: lr)) by (apply one_above_max; reflexivity).
  assert (UK : forall k', one_above k' (l0 :: lr) -> k' = k0) by (intros k' H; apply one_above_max; exact H).
  destruct (Z.ltb_spec k0 0) as [Hk|Hk].
  { split; [discriminate|]; intros (rows & e & l' & _ & _ & [= <-] & _ & H & H0 & _); apply UK in H; lia. }
  destruct (resolve act lower (c_activation c)) as [a|er] eqn:Er.
  2: { split; [discriminate|]; intros (rows & e & l' & _ & _ & _ & _ & _ & _ & H & _); apply (resolve_known act) in H; destruct H as (a & H); congruence. }
  assert (Kn : known lower (c_activation c)) by (apply (resolve_known act); exists a; exact Er).
  pose proof (sizes_sign c (n_w d) k0 Hk) as Sg.
  destruct (existsb (fun z => z <? 0) (layer_sizes c (n_w d) k0)) eqn:Es.
  { split; [discriminate|]; intros (rows & e & l' & _ & _ & _ & _ & _ & _ & _ & H & _); apply Sg in H; discriminate. }
  pose proof (proj1 Sg eq_refl) as Nn.
  destruct (init (layer_sizes c (n_w d) k0) _) as (ls, g1).
  assert (B : (0 <? c_epochs c) && negb (edges_in (length (n_rows d)) (n_edges d) && forallb (label_ok k0) (l0 :: lr)) = false <->
              (0 < c_epochs c -> ends_in (length (n_rows d)) (n_edges d) /\ forall x, In x (l0 :: lr) -> 0 <= x \/ x = -100)).
  { assert (Bl : forallb (label_ok k0) (l0 :: lr) = true <-> forall x, In x (l0 :: lr) -> 0 <= x \/ x = -100).
    { rewrite forallb_forall; split; intros H x Hx; specialize (H x Hx); unfold label_ok in *; pose proof (proj2 K0 x Hx); lia. }
    rewrite <- edges_in_spec, <- Bl; destruct (Z.ltb_spec 0 (c_epochs c)); cbn [andb]; [|split; [intros _ H0; lia|reflexivity]].
    rewrite negb_false_iff, andb_true_iff; split; [intros H0 _; exact H0|intros H0; exact (H0 H)]. }
  destruct ((0 <? c_epochs c) && _) eqn:Eb.
  { split; [discriminate|]; intros (rows & e & l' & G & -> & [= <-] & _ & _ & _ & _ & _ & H); destruct (U _ _ _ G) as (_ & -> & ->); apply B in H; discriminate. }
  destruct (Nat.iter _ _ _) as (ls', g2); cbn [snd]; split.
  - intros [= <- <- <-]; exists (n_rows d), (n_edges d), (l0 :: lr); split; [exact Gd|split; [reflexivity|split; [reflexivity|split; [exact El|split; [exact K0|split; [exact Hk|split; [exact Kn|split; [exact Nn|apply B; reflexivity]]]]]]]].
  - intros (rows & e & l' & G & -> & [= <-] & _ & H & _); destruct (U _ _ _ G) as (-> & -> & _); rewrite (UK _ H); reflexivity.
Qed.

(* the state a successful fit leaves *)
Lemma fit_state c X y (st : state) n w k : snd (fit c X y st) = Ok (n, w, k) -> exists d l a,
  coerce X false = Ok d /\ y = Y1 l /\ n_w d = w /\ resolve act lower (c_activation c) = Ok a /\ one_above k l /\ 0 <= k /\
  let g := match c_seed c with Some s => seeded s | None => st_gen gen st end in
  let r := Nat.iter (Z.to_nat (c_epochs c)) (epoch a d l) (init (layer_sizes c w k) g) in
  fst (fit c X y st) = {| st_classes := Some (arange k); st_model := Some {| m_act := a; m_in := w; m_layers := fst r |}; st_gen := snd r |}.
Proof.
  unfold GsiModel.fit; cbv zeta; destruct (coerce X false) as [d|er]; [|discriminate]; destruct y as [l|]; [|discriminate].
  destruct (negb _); [discriminate|]; destruct l as [|l0 lr]; [discriminate|].
  destruct (Z.ltb_spec (maxl l0 lr + 1) 0); [discriminate|]; destruct (resolve act lower (c_activation c)) as [a|]; [|discriminate].
  destruct (existsb _ _); [discriminate|]; destruct (init _ _) as (ls, g1) eqn:Ei; destruct ((0 <? c_epochs c) && _); [discriminate|].
  destruct (Nat.iter _ _ _) as (ls', g2) eqn:En; cbn [snd fst]; intros [= <- <- <-]; exists d, (l0 :: lr), a.
  split; [reflexivity|split; [reflexivity|split; [reflexivity|split; [reflexivity|split; [apply one_above_max; reflexivity|split; [assumption|]]]]]].
  rewrite Ei, En; reflexivity.
Qed.

(* C158.  With a seed, a successful fit leaves the same classifier whatever happened before it: earlier fits, failures, draws from the global
   generator. *)
Theorem C158_reproducible c X y (st1 st2 : state) s r : c_seed c = Some s -> snd (fit c X y st1) = Ok r -> fit c X y st2 = fit c X y st1.
Proof.
  intros Es; unfold GsiModel.fit; cbv zeta; rewrite Es; destruct (coerce X false) as [d|er]; [|discriminate]; destruct y as [l|]; [|discriminate].
  destruct (negb _); [discriminate|]; destruct l as [|l0 lr]; [discriminate|].
  destruct (_ <? 0); [discriminate|]; destruct (resolve act lower (c_activation c)) as [a|]; [|discriminate].
  destruct (existsb _ _); [discriminate|]; destruct (init _ _) as (ls, g1); destruct ((0 <? c_epochs c) && _); [discriminate|].
  destruct (Nat.iter _ _ _); reflexivity.
Qed.

(* C158.  The edge weights of the graph, batch_size and num_neighbors change nothing. *)
Theorem C158_ignored_refuted c x e ew1 ew2 b nb y (st : state) :
  fit c (IDict x e ew1) y st = fit {| c_sizes := c_sizes c; c_hidden := c_hidden c; c_layers := c_layers c; c_activation := c_activation c; c_epochs := c_epochs c; c_seed := c_seed c; c_batch := b; c_neighbors := nb |} (IDict x e ew2) y st.
Proof. reflexivity. Qed.

(* C158.  What is predicted for a node depends only on the nodes with a walk to it of at most as many edges as there are layers: change
   features elsewhere, add nodes, add edges into nodes further away, and its label stays. *)
Theorem C158_local (st : state) m w rows1 e1 rows2 e2 X1 X2 p1 p2 v : st_model gen st = Some m -> graph_input X1 w rows1 e1 -> graph_input X2 w rows2 e2 ->
  predict st X1 = Ok p1 -> predict st X2 = Ok p2 -> 0 <= v < Z.of_nat (length rows1) -> 0 <= v < Z.of_nat (length rows2) ->
  (forall j u, walk e1 v j u -> (j <= length (m_layers m))%nat -> nth_error rows1 (Z.to_nat u) = nth_error rows2 (Z.to_nat u)) ->
  (forall j u, walk e1 v j u -> (j < length (m_layers m))%nat -> filter (fun p => snd p =? u) e1 = filter (fun p => snd p =? u) e2) ->
  nth_error p1 (Z.to_nat v) = nth_error p2 (Z.to_nat v).
Proof.
  intros Hm G1 G2 H1 H2 V1 V2 HR HS; unfold GsiModel.predict, GsiModel.predict_proba in H1, H2; rewrite (coerce_dict _ _ _ _ G1) in H1; rewrite (coerce_dict _ _ _ _ G2) in H2; rewrite Hm in H1, H2.
  cbn [bind n_w n_rows n_edges] in H1, H2; destruct (negb (Nat.eqb w (m_in m))); [discriminate|].
  destruct (edges_in (length rows1) e1) eqn:I1; [|discriminate]; destruct (edges_in (length rows2) e2) eqn:I2; [|discriminate]; cbn [negb bind] in H1, H2.
  apply edges_in_spec in I1, I2; injection H1 as <-; injection H2 as <-; rewrite !nth_error_map.
  assert (E : row_at (forward (m_act m) (m_layers m) w rows1 e1) v = row_at (forward (m_act m) (m_layers m) w rows2 e2) v).
  { apply forward_local.
    - intros j u Hw Hj; assert (B : 0 <= u < Z.of_nat (length rows1) /\ 0 <= u < Z.of_nat (length rows2)).
      { destruct Hw as [|j u x Hi Hw]; [split; assumption|]; split; [apply (I1 u x Hi)|].
        assert (Hi2 : In (u, x) (filter (fun p => snd p =? x) e1)) by (apply filter_In; split; [exact Hi|cbn; apply Z.eqb_refl]).
        rewrite (HS j x Hw) in Hi2 by lia; apply filter_In in Hi2; apply (I2 u x); apply Hi2. }
      split; [apply B|split; [apply B|]]; unfold row_at; specialize (HR j u Hw Hj).
      destruct (nth_error rows1 (Z.to_nat u)) as [r1|] eqn:R1; [|apply nth_error_None in R1; lia].
      rewrite (nth_error_nth _ _ _ R1); symmetry; apply nth_error_nth; symmetry; exact HR.
    - intros j u Hw Hj; unfold sources; rewrite (HS j u Hw Hj); reflexivity. }
  unfold row_at in E; rewrite !(nth_error_nth' _ []) by (rewrite forward_length; lia); rewrite E; reflexivity.
Qed.

(* C158.  Before any fit every graph is refused with an attribute error; a fit refused for its input or labels leaves predictions as
   they were. *)
Theorem C158_unchanged c X y (st : state) : known lower (c_activation c) -> no_negative c ->
  (forall X2 w rows e, st_model gen st = None -> graph_input X2 w rows e -> predict st X2 = Err AttributeError) /\
  (forall er, snd (fit c X y st) = Err er -> er <> IndexError -> forall X2, predict (fst (fit c X y st)) X2 = predict st X2).
Proof.
  intros Kn Nn; split.
  - intros X2 w rows e Hn G; unfold GsiModel.predict, GsiModel.predict_proba; rewrite (coerce_dict _ _ _ _ G); cbn [bind]; rewrite Hn; reflexivity.
  - apply (resolve_known act) in Kn; destruct Kn as (a & Ea); intros er; unfold GsiModel.fit; cbv zeta; rewrite Ea; destruct (coerce X false) as [d|er0]; [|reflexivity]; destruct y as [l|]; [|reflexivity].
    destruct (negb _); [reflexivity|]; destruct l as [|l0 lr]; [reflexivity|].
    destruct (Z.ltb_spec (maxl l0 lr + 1) 0); [reflexivity|].
    rewrite (proj2 (sizes_sign c (n_w d) (maxl l0 lr + 1) ltac:(assumption)) Nn); destruct (init _ _) as (ls, g1); destruct ((0 <? c_epochs c) && _); cbn [snd]; [intros [= <-] H0; destruct (H0 eq_refl)|].
    destruct (Nat.iter _ _ _); discriminate.
Qed.

(* A fit refused before training, for whatever reason, leaves the scores of an earlier fit as they were. *)
Theorem C158_scores_unchanged c X y (st : state) er : snd (fit c X y st) = Err er -> er <> IndexError -> forall X2, predict_proba (fst (fit c X y st)) X2 = predict_proba st X2.
Proof.
  unfold GsiModel.fit; cbv zeta; destruct (coerce X false) as [d|er0]; [|reflexivity]; destruct y as [l|]; [|reflexivity].
  destruct (negb _); [reflexivity|]; destruct l as [|l0 lr]; [reflexivity|]; destruct (_ <? 0); [reflexivity|].
  destruct (GsiModel.resolve _ _ _) as [a|er0]; [|reflexivity]; destruct (existsb _ _); [reflexivity|].
  destruct (init _ _) as (ls, g1); destruct ((0 <? c_epochs c) && _); cbn [snd]; [intros [= <-] H0; destruct (H0 eq_refl)|].
  destruct (Nat.iter _ _ _); discriminate.
Qed.

(* C158.  A fit with a negative label (the usual mark of unlabelled nodes) or with an edge outside the graph fails, but only after its network
   was put in place: from then on predictions come from weights that saw no training, and what was learned before is lost. *)
Theorem C158_failed_fit_refuted c X w rows e l k (st : state) : graph_input X w rows e -> length l = length rows -> one_above k l -> 0 <= k -> known lower (c_activation c) -> no_negative c ->
  0 < c_epochs c -> ~ (ends_in (length rows) e /\ forall x, In x l -> 0 <= x \/ x = -100) ->
  snd (fit c X (Y1 l) st) = Err IndexError /\ exists m, st_model gen (fst (fit c X (Y1 l) st)) = Some m /\
    m_layers m = fst (init (layer_sizes c w k) (match c_seed c with Some s => seeded s | None => st_gen gen st end)).
Proof.
  intros G El Ab Hk Kn Nn Hep Hbad; unfold GsiModel.fit; cbv zeta; rewrite (coerce_dict _ _ _ _ G); cbn [n_w n_rows n_edges].
  rewrite El, Nat.eqb_refl; cbn [negb]; destruct l as [|l0 lr]; [destruct Ab as ([] & _)|].
  pose proof (proj1 (one_above_max l0 lr k) Ab) as Ek; rewrite <- Ek; destruct (Z.ltb_spec k 0) as [Hk'|_]; [lia|].
  apply (resolve_known act) in Kn; destruct Kn as (a & ->).
  rewrite (proj2 (sizes_sign c w k Hk) Nn); destruct (init _ _) as (ls, g1).
  assert (B : edges_in (length rows) e && forallb (label_ok k) (l0 :: lr) = false).
  { apply not_true_iff_false; intros T; apply andb_true_iff in T; destruct T as (T1 & T2); apply Hbad; split; [apply edges_in_spec; exact T1|].
    rewrite forallb_forall in T2; intros x Hx; specialize (T2 x Hx); unfold label_ok in T2; lia. }
  rewrite B; destruct (Z.ltb_spec 0 (c_epochs c)); [|lia]; cbn [andb negb fst snd]; split; [reflexivity|]; eexists; split; reflexivity.
Qed.
(* the network keeps the widths it was built with *)
Context (init_fits : forall sizes g, sizes <> [] -> fits sizes (fst (init sizes g))) (epoch_fits : forall a d l sizes p, fits sizes (fst p) -> fits sizes (fst (epoch a d l p))).
Context (softmax_length : forall r, length (softmax r) = length r) (argmax_ok : forall r, r <> [] -> (argmax r < length r)%nat).
Lemma iter_fits a d l sizes p n : fits sizes (fst p) -> fits sizes (fst (Nat.iter n (epoch a d l) p)).
Proof using epoch_fits. intros H; induction n as [|n IH]; [exact H|]; cbn [Nat.iter]; apply epoch_fits; exact IH. Qed.

(* C158.  After a successful fit with some training, every graph with as many features and edges between its nodes gets one label per node,
   from 0 to the largest label seen; an array of features is a graph without edges; other inputs are refused. *)
Theorem C158_predict c X y (st : state) n w k : 0 < c_epochs c -> snd (fit c X y st) = Ok (n, w, k) ->
  (forall X2 rows e, graph_input X2 w rows e -> ends_in (length rows) e -> exists p, predict (fst (fit c X y st)) X2 = Ok p /\ length p = length rows /\ forall l, In l p -> 0 <= l < k) /\
  (forall x, predict (fst (fit c X y st)) (IArray x) = predict (fst (fit c X y st)) (IDict (Some x) (Some (E2 [] [])) None)) /\
  (forall X2 w2 rows e, graph_input X2 w2 rows e -> w2 <> w -> predict (fst (fit c X y st)) X2 = Err RuntimeError) /\
  (forall X2 rows e, graph_input X2 w rows e -> ~ ends_in (length rows) e -> predict (fst (fit c X y st)) X2 = Err IndexError).
Proof.
  intros Hep Hf; pose proof (proj1 (C158_fit c X y st n w k) Hf) as (rows0 & e0 & l0 & _ & _ & E0 & _ & Ab & _ & _ & _ & Hl); specialize (Hl Hep); destruct Hl as (_ & Hl).
  destruct (fit_state c X y st n w k Hf) as (d & l & a & _ & El & _ & _ & Ab' & Hk0 & Hst); cbv zeta in Hst; rewrite Hst.
  rewrite E0 in El; injection El as <-.
  assert (Hk : 1 <= k) by (destruct Ab as (A & _); destruct (Hl _ A); lia).
  set (r := Nat.iter _ _ _); assert (F : fits (layer_sizes c w k) (fst r)).
  { apply iter_fits, init_fits; destruct (sizes_two c w k) as (? & ? & ? & ->); discriminate. }
  assert (N : fst r <> []) by (intros E; rewrite E in F; destruct (sizes_two c w k) as (? & ? & ? & E'); rewrite E' in F; inversion F).
  split; [|split; [|split]].
  - intros X2 rows e G He; unfold GsiModel.predict, GsiModel.predict_proba; rewrite (coerce_dict _ _ _ _ G); cbn [bind st_model st_classes m_in m_act m_layers n_w n_rows n_edges].
    rewrite Nat.eqb_refl; cbn [negb]; rewrite (proj2 (edges_in_spec _ _) He); cbn [negb bind]; eexists; split; [reflexivity|]; split; [rewrite !map_length; apply forward_length|].
    intros lab Hi; apply in_map_iff in Hi; destruct Hi as (row & <- & Hi); apply in_map_iff in Hi; destruct Hi as (lg & <- & Hi).
    apply (forward_width _ _ _ F N) in Hi; rewrite sizes_last in Hi.
    assert (Hb : (argmax (softmax lg) < Z.to_nat k)%nat) by (rewrite <- Hi, <- softmax_length; apply argmax_ok; intros E; apply (f_equal (@length Q)) in E; rewrite softmax_length in E; cbn in E; lia).
    apply arange_In; apply nth_In; rewrite arange_length; exact Hb.
  - intros x; unfold GsiModel.predict, GsiModel.predict_proba; reflexivity.
  - intros X2 w2 rows e G Hw; unfold GsiModel.predict, GsiModel.predict_proba; rewrite (coerce_dict _ _ _ _ G); cbn [bind st_model m_in n_w]; destruct (Nat.eqb_spec w2 w); [contradiction|reflexivity].
  - intros X2 rows e G He; unfold GsiModel.predict, GsiModel.predict_proba; rewrite (coerce_dict _ _ _ _ G); cbn [bind st_model m_in n_w n_rows n_edges]; rewrite Nat.eqb_refl; cbn [negb].
    destruct (edges_in (length rows) e) eqn:Ee; [apply edges_in_spec in Ee; contradiction|reflexivity].
Qed.

End Classifier.

(* C158.  A label that no node had can be predicted: the classes are all the numbers up to the largest label. *)
Definition hx_layer (k : nat) : layer := {| l_nb := repeat [] k; l_bias := map (fun i => inject_Z (if Nat.eqb i 1 then 1 else 0)) (seq 0 k); l_self := repeat [] k |}.
Definition hx_init (sizes : list Z) (g : unit) : list layer * unit := (map (fun z => hx_layer (Z.to_nat z)) (tl sizes), g).
Fixpoint hx_argmax_from (best : Q) (at_ k : nat) (l : list Q) : nat := match l with [] => at_ | x :: r => if Qle_bool x best then hx_argmax_from best at_ (S k) r else hx_argmax_from x k (S k) r end.
Definition hx_argmax (l : list Q) : nat := match l with [] => 0%nat | x :: r => hx_argmax_from x 0 1 r end.
Definition hx_c : params := {| c_sizes := None; c_hidden := 3; c_layers := 2; c_activation := "relu"; c_epochs := 1; c_seed := Some 0; c_batch := 512; c_neighbors := [15; 10] |}.
Definition hx_X : input := IDict (Some (F2 1 [[1%Q]; [2%Q]])) (Some (E2 [0] [1])) None.
Definition hx_fit := fit (fun _ x => x) (fun s => s) unit (fun _ => tt) hx_init (fun _ _ _ p => p).
Definition hx_st : state unit := {| st_classes := None; st_model := None; st_gen := tt |}.
Theorem C158_unseen_label_refuted : exists act softmax argmax lower init epoch,
  (forall sizes g, sizes <> [] -> fits sizes (fst (init sizes g))) /\ (forall a d l sizes p, fits sizes (fst p) -> fits sizes (fst (epoch a d l p))) /\
  (forall r, length (softmax r) = length r) /\ (forall r, r <> [] -> (argmax r < length r)%nat) /\
  exists c X l st r, snd (fit act lower unit (fun _ => tt) init epoch c X (Y1 l) st) = Ok r /\
    exists p x, predict softmax argmax unit (fst (fit act lower unit (fun _ => tt) init epoch c X (Y1 l) st)) X = Ok p /\ In x p /\ ~ In x l.
Proof.
  exists (fun _ x => x), (fun r => r), hx_argmax, (fun s => s), hx_init, (fun _ _ _ p => p).
  split; [|split; [|split; [reflexivity|split]]].
  - intros sizes g; unfold hx_init; cbn [fst]; destruct sizes as [|a r]; [intros H; destruct (H eq_refl)|intros _]; cbn [tl]; revert a; induction r as [|b r IH]; intros a; cbn [map]; constructor.
    1,3: cbn [hx_layer l_nb l_self]; apply repeat_length.
    + cbn [hx_layer l_bias]; rewrite map_length; apply seq_length.
    + apply IH.
  - intros a d l sizes p H; exact H.
  - assert (G : forall l b i k, (i < k)%nat -> (hx_argmax_from b i k l < k + length l)%nat).
    { induction l as [|x l IH]; intros b i k H; cbn [hx_argmax_from length]; [lia|]; destruct (Qle_bool x b); [specialize (IH b i (S k))|specialize (IH x k (S k))]; lia. }
    intros [|x r] H; [destruct (H eq_refl)|]; unfold hx_argmax; specialize (G r x 0%nat 1%nat); cbn [length]; lia.
  - exists hx_c, hx_X, [0; 2], hx_st, (2%nat, 1%nat, 3); split; [reflexivity|]; exists [1; 1], 1; split; [reflexivity|]; split; [left; reflexivity|]; intros [H|[H|[]]]; discriminate.
Qed.

(* ----- instances ----- *)
Example hx_make : make (Some 3) SNone None "relu" 1 (Some 0) 512 [] = Ok hx_c. Proof. reflexivity. Qed.
Example hx_make_sizes : exists c, make None (SSeq [8; 4]) (Some 3) "relu" 1 (Some 0) 512 [] = Ok c /\ layer_sizes c 5 2 = [5; 8; 4; 2]. Proof. eexists; split; reflexivity. Qed.
Example hx_ok : snd (hx_fit hx_c hx_X (Y1 [0; 2]) hx_st) = Ok (2%nat, 1%nat, 3). Proof. reflexivity. Qed.
Example hx_fails : snd (hx_fit hx_c hx_X (Y1 [0; -1]) hx_st) = Err IndexError. Proof. reflexivity. Qed.
Example hx_refused : snd (hx_fit hx_c hx_X (Y1 [0]) hx_st) = Err ValueError. Proof. reflexivity. Qed.
Example hx_refused_activation : snd (hx_fit {| c_sizes := None; c_hidden := 3; c_layers := 2; c_activation := "swish"; c_epochs := 1; c_seed := Some 0; c_batch := 512; c_neighbors := [15; 10] |} hx_X (Y1 [0; 2]) hx_st) = Err ValueError. Proof. reflexivity. Qed.
Example hx_input : graph_input hx_X 1 [[1%Q]; [2%Q]] [(0, 1)] /\ ends_in 2 [(0, 1)] /\ one_above 3 [0; 2] /\ known (fun s => s) (c_activation hx_c) /\ no_negative hx_c.
Proof.
  split; [exists [0], [1], None; split; reflexivity|split; [intros u v [[= <- <-]|[]]; lia|split; [split; [right; left; reflexivity|intros x [<-|[<-|[]]]; lia]|split; [left; reflexivity|left; cbn; lia]]]].
Qed.
(* two graphs that agree around node 1 under one layer: the second has another node and an edge into node 0 *)
Example hx_local : let st := {| st_classes := Some [0; 1]; st_model := Some {| m_act := fun x => x; m_in := 1%nat; m_layers := [{| l_nb := [[1%Q]; [0%Q]]; l_bias := [0%Q; 1%Q]; l_self := [[0%Q]; [1%Q]] |}] |}; st_gen := tt |} in
  predict (fun r => r) hx_argmax unit st hx_X = Ok [1; 1] /\
  predict (fun r => r) hx_argmax unit st (IDict (Some (F2 1 [[1%Q]; [2%Q]; [9%Q]])) (Some (E2 [2; 0] [0; 1])) None) = Ok [0; 1; 1] /\
  filter (fun p => snd p =? 1) [(0, 1)] = filter (fun p => snd p =? 1) [(2, 0); (0, 1)].
Proof. split; [|split]; reflexivity. Qed.
Print Assumptions C158_make.
Print Assumptions C158_fit.
Print Assumptions C158_reproducible.
Print Assumptions C158_ignored_refuted.
Print Assumptions C158_predict.
Print Assumptions C158_local.
Print Assumptions C158_unchanged.
Print Assumptions C158_scores_unchanged.
Print Assumptions C158_failed_fit_refuted.
Print Assumptions C158_unseen_label_refuted.
