(* C156: class filters and limits of loaded data sets.  C157: graphs cut down to some of their nodes. *)
From Coq Require Import String Sorted Permutation Lia ZifyBool ZifyNat.
From Verif Require Import Prelude ListFacts BundleProofs ProvModel ProvSpec ProvProofs.
Local Open Scope string_scope.
Local Open Scope Z_scope.
Local Open Scope list_scope.
Local Notation length := List.length.

Section Shuffles.
Context (shuffle : Z -> nat -> list nat) (shuffle_ok : forall s n, Permutation (shuffle s n) (seq 0 n)).

(* C156.  The rows kept of aligned data are rows whose label passes the filter, each at most once, as many as the limit allows, with the
   labels they had; without a seed (or without a limit) they are the first ones, in order; with a seed they come as the
   shuffle of that seed orders the passing rows. *)
Theorem C156_limits {A} cf max seed (X : list A) y : length X = length y ->
  exists all p X' y', apply_limits shuffle cf max seed X y = Ok (X', y') /\ passing cf y all /\ limited max seed all p /\ picks X p X' /\ picks y p y' /\
    (forall s, seed = Some s -> max <> None -> p = drawn shuffle s all p).
Proof. apply limits_ok; exact shuffle_ok. Qed.

(* C156.  Of two splits each is limited on its own; the test split never changes what is kept for training. *)
Theorem C156_splits {A} cf mt me seed (X : list A) y : length X = length y ->
  (exists r, load_splits shuffle cf mt me seed (X, y) None = Ok (r, None) /\ apply_limits shuffle cf mt seed X y = Ok r) /\
  (forall X2 y2, length X2 = length y2 -> exists r r2, load_splits shuffle cf mt me seed (X, y) (Some (X2, y2)) = Ok (r, Some r2) /\
     apply_limits shuffle cf mt seed X y = Ok r /\ apply_limits shuffle cf me (option_map (Z.add 1) seed) X2 y2 = Ok r2).
Proof.
  intros E; destruct (C156_limits cf mt seed X y E) as (all & p & X' & y' & H & _); unfold load_splits; cbn [fst snd]; rewrite H; cbn [bind]; split.
  - exists (X', y'); split; reflexivity.
  - intros X2 y2 E2; destruct (C156_limits cf me (option_map (Z.add 1) seed) X2 y2 E2) as (all2 & p2 & X2' & y2' & H2 & _).
    exists (X', y'), (X2', y2'); split; [|split; [reflexivity|exact H2]].
    replace (match seed with Some s => Some (s + 1) | None => None end) with (option_map (Z.add 1) seed) by (destruct seed as [s|]; [cbn [option_map]; rewrite Z.add_comm; reflexivity|reflexivity]).
    rewrite H2; reflexivity.
Qed.

(* C156.  Data and labels of different lengths: a filter refuses them, nothing else looks.  Without a filter and a limit they come back as they
   are; with a limit, data with more rows than labels is cut without a word. *)
Theorem C156_unaligned_refuted {A} (X : list A) y max seed :
  (forall c, length X <> length y -> apply_limits shuffle (Some c) max seed X y = Err IndexError) /\
  apply_limits shuffle None None seed X y = Ok (X, y) /\
  ((length y <= length X)%nat -> apply_limits shuffle None max seed (firstn (length y) X) y = apply_limits shuffle None max seed X y \/ max = None).
Proof.
  split; [|split; [reflexivity|]].
  - intros c H; unfold apply_limits, apply_class_filter; cbv zeta; rewrite masked_err by (rewrite map_length; exact H); reflexivity.
  - intros H; destruct max as [m|]; [left|right; reflexivity]; unfold apply_limits; cbn [apply_class_filter bind limit_samples]; cbv zeta.
    destruct ((m <=? 0) || Nat.eqb (length y) 0) eqn:Eb; [reflexivity|].
    set (q := match seed with Some s => shuffle s (length y) | None => seq 0 (length y) end).
    assert (Eq : match seed with Some s => shuffled shuffle s (arange (Z.of_nat (length y))) | None => arange (Z.of_nat (length y)) end = map Z.of_nat q).
    { unfold q; destruct seed as [s|]; [apply shuffled_arange; exact shuffle_ok|unfold arange; rewrite Nat2Z.id; reflexivity]. }
    rewrite Eq, firstn_map; set (t := firstn _ q).
    assert (In1 : forall i, In i t -> (i < length y)%nat).
    { intros i Hi; assert (Hq : In i q) by (rewrite <- (firstn_skipn (Nat.min (length y) (Z.to_nat m)) q); apply in_or_app; left; exact Hi).
      assert (Pq : Permutation q (seq 0 (length y))) by (unfold q; destruct seed; [apply shuffle_ok|reflexivity]).
      apply (Permutation_in _ Pq) in Hq; apply in_seq in Hq; lia. }
    destruct (picks_exists (firstn (length y) X) t) as (r & Pr); [intros i Hi; rewrite firstn_length; specialize (In1 i Hi); lia|].
    rewrite (proj2 (gather_picks _ _ _) Pr).
    assert (Pr2 : picks X t r).
    { clear - Pr In1; induction Pr as [|i a t r E _ IH]; constructor; [|apply IH; intros j Hj; apply In1; right; exact Hj].
      rewrite <- E, <- (firstn_skipn (length y) X) at 1; apply nth_error_app1; apply nth_error_Some; congruence. }
    rewrite (proj2 (gather_picks _ _ _) Pr2); reflexivity.
Qed.

(* C157.  The graph loaded from features X, labels and masks of one dimension and edges in two rows: some nodes K, in order, whose labels pass
   the filter, as many as the limit allows; features, labels (-1 when missing) and masks (false when missing) are those of K; the edges are
   those between nodes of K, in order, renumbered by the place of their ends. *)
Theorem C157_subset {A} (X : list A) ls edges ms cf max seed :
  (forall y, ls = Some y -> (length y <= length X)%nat) -> (forall m, max = Some m -> 0 <= m) ->
  (forall src dst, edges = Some (src, dst) -> src <> [] /\ length src = length dst /\ Forall (fun v => 0 <= v < Z.of_nat (length X)) src /\ Forall (fun v => 0 <= v < Z.of_nat (length X)) dst) ->
  exists all K s X', candidates cf ls (length X) all /\ limited max seed all K /\ StronglySorted lt K /\ (forall s0, seed = Some s0 -> Permutation K (drawn shuffle s0 all K)) /\
    load_graph shuffle {| g_x := Some X; g_y := option_map singles ls; g_edges := option_map (fun e => [fst e; snd e]) edges;
                          g_masks := map (fun p => (fst p, singles (snd p))) ms |} cf max seed = Ok s /\
    s_x s = Some X' /\ picks X K X' /\
    s_y s = option_map (fun y => singles (map (fun i => nth i y (-1)) K)) ls /\
    (K <> [] -> s_masks s = map (fun p => (fst p, map (fun i => nth i (snd p) false) K)) ms) /\
    (K <> [] -> edges = None -> s_edges s = None) /\
    (K <> [] -> forall src dst, edges = Some (src, dst) -> exists e, s_edges s = Some e /\
       renumbered K (filter (fun e => memZ (fst e) (map Z.of_nat K) && memZ (snd e) (map Z.of_nat K)) (combine src dst)) e).
Proof.
  intros Hy Hmax He; set (n := length X).
  set (full := fun y : list Z => y ++ repeat (-1) (n - length y)).
  assert (Lf : forall y, ls = Some y -> length (full y) = n) by (intros y E; specialize (Hy y E); unfold full; rewrite app_length, repeat_length; fold n in Hy; lia).
  assert (Ey : match option_map singles ls with Some y => if Nat.ltb (length y) n then do y' <- pad_labels y n; Ok (Some y') else Ok (Some y) | None => Ok None end
               = Ok (option_map (fun y => singles (full y)) ls)).
  { destruct ls as [y|]; [|reflexivity]; cbn [option_map]; rewrite singles_length; specialize (Hy y eq_refl); fold n in Hy.
    destruct (Nat.ltb_spec (length y) n).
    - unfold pad_labels; rewrite concat_singles; cbv zeta; destruct (Nat.ltb_spec n (length y)); [lia|]; reflexivity.
    - unfold full; replace (n - length y)%nat with 0%nat by lia; cbn [repeat]; rewrite app_nil_r; reflexivity. }
  set (idx0 := match cf, option_map (fun y => singles (full y)) ls with Some c, Some y => where_isin y c | _, _ => arange (Z.of_nat n) end).
  assert (H0 : exists all, idx0 = map Z.of_nat all /\ candidates cf ls n all).
  { assert (D : (forall y, ls = Some y -> cf = None) -> arange (Z.of_nat n) = map Z.of_nat (seq 0 n) /\ candidates cf ls n (seq 0 n)).
    { intros H; split; [unfold arange; rewrite Nat2Z.id; reflexivity|]; split; [apply seq_sorted|]; intros i; rewrite in_seq.
      split; [intros Hi; split; [lia|]; intros y Ey' c Ec; rewrite (H y Ey') in Ec; discriminate|intros (Hi & _); lia]. }
    unfold idx0; destruct cf as [c|]; [|eexists; apply D; reflexivity]; destruct ls as [y|]; cbn [option_map]; [|eexists; apply D; discriminate].
    rewrite where_singles; eexists; split; [reflexivity|]; split; [apply positions_sorted|]; intros i; rewrite positions_in, Nat.sub_0_r, nth_error_map.
    specialize (Lf y eq_refl); split.
    - intros (_ & E); destruct (nth_error (full y) i) as [l|] eqn:El; [|discriminate].
      split; [rewrite <- Lf; apply nth_error_Some; congruence|]; intros y' [= <-] c' [= <-].
      apply nth_error_nth with (d := -1) in El; unfold full in El; rewrite nth_pad in El; rewrite El; apply memZ_In; injection E as E; exact E.
    - intros (Hi & W); split; [lia|]; rewrite (nth_error_nth' (full y) (-1)) by lia; cbn [option_map]; f_equal.
      unfold full; rewrite nth_pad; apply memZ_In; apply (W y eq_refl c eq_refl). }
  destruct H0 as (all & E0 & Ca).
  destruct (choose_ok shuffle shuffle_ok max seed all (proj1 Ca) Hmax) as (K & EK & LK & SK & DK).
  assert (InK : forall i, In i K -> (i < n)%nat) by (intros i Hi; apply (proj1 (proj2 LK)) in Hi; apply (proj2 Ca) in Hi; apply Hi).
  assert (Load : load_graph shuffle {| g_x := Some X; g_y := option_map singles ls; g_edges := option_map (fun e => [fst e; snd e]) edges; g_masks := map (fun p => (fst p, singles (snd p))) ms |} cf max seed
    = subset_graph {| g_x := Some X; g_y := option_map (fun y => singles (full y)) ls; g_edges := option_map (fun e => [fst e; snd e]) edges; g_masks := map (fun p => (fst p, singles (snd p))) ms |} (map Z.of_nat K)).
  { unfold load_graph; cbn [g_x g_y g_edges g_masks]; cbv zeta; fold n; rewrite Ey; cbn [bind]; fold idx0; rewrite E0, EK; reflexivity. }
  rewrite Load; clear Load EK.
  assert (Gy : forall y, ls = Some y -> gather (singles (full y)) (map Z.of_nat K) = Ok (singles (map (fun i => nth i y (-1)) K))).
  { intros y E; apply gather_picks; specialize (Lf y E); unfold singles at 2; rewrite map_map.
    rewrite (map_ext_in _ (fun i => nth i (singles (full y)) [])).
    - apply map_picks; intros i Hi; rewrite singles_length, Lf; auto.
    - intros i Hi; unfold singles; rewrite (nth_indep _ [] [(-1)]) by (rewrite map_length, Lf; auto); rewrite (map_nth (fun b => [b])); unfold full; rewrite nth_pad; reflexivity. }
  destruct (picks_exists X K InK) as (X' & PX).
  destruct K as [|k0 K'] eqn:EK'.
  { exists all, []; eexists; exists []; split; [exact Ca|split; [exact LK|split; [constructor|split; [exact DK|]]]].
    split; [reflexivity|]; cbn [s_x s_y s_masks s_edges]; split; [reflexivity|split; [constructor|split; [destruct ls; reflexivity|]]].
    split; [intros H; destruct (H eq_refl)|split; intros H; destruct (H eq_refl)]. }
  assert (NK : K <> []) by (rewrite EK'; discriminate).
  rewrite <- EK' in *; clear EK'.
  destruct (set_all_ok (repeat (-1) n) K 0 (sorted_NoDup K SK)) as (m' & Em & Lm & Om & Jm); [intros i Hi; rewrite repeat_length; auto|].
  rewrite repeat_length in Lm.
  assert (Om' : forall i, ~ In i K -> nth i m' (-1) = -1) by (intros i Hi; rewrite Om by exact Hi; apply nth_repeat).
  assert (En : Nat.max (opt_rows (Some X)) (opt_rows (option_map (fun y => singles (full y)) ls)) = n).
  { destruct ls as [y|]; cbn [option_map opt_rows]; [rewrite singles_length, Lf by reflexivity|]; fold n; lia. }
  assert (Ek : exists e, kept_edges m' (option_map (fun e => [fst e; snd e]) edges) = Ok e /\ (edges = None -> e = None) /\
    (forall src dst, edges = Some (src, dst) -> exists e1, e = Some e1 /\ renumbered K (filter (fun e => memZ (fst e) (map Z.of_nat K) && memZ (snd e) (map Z.of_nat K)) (combine src dst)) e1)).
  { destruct edges as [(src, dst)|]; [|exists None; split; [reflexivity|split; [reflexivity|discriminate]]].
    destruct (He src dst eq_refl) as (Ne & El & Fs & Fd); destruct (kept_ok K n src dst m' Lm Om' Jm El Ne Fs Fd) as (e1 & H1 & R1).
    exists (Some e1); split; [exact H1|split; [discriminate|]]; intros ? ? [= <- <-]; exists e1; split; [reflexivity|exact R1]. }
  destruct Ek as (e & H1 & H2 & H3).
  exists all, K; eexists; exists X'; split; [exact Ca|split; [exact LK|split; [exact SK|split; [exact DK|split]]]].
  { rewrite subset_some by (destruct K; [destruct (NK eq_refl)|discriminate]); cbn [g_x g_y g_edges g_masks]; cbv zeta.
    rewrite En, Em; cbn [bind]; rewrite H1; cbn [bind]; rewrite (masks_ok n K ms InK); cbn [bind opt_gather]; rewrite (proj2 (gather_picks X K X') PX); cbn [bind].
    assert (Gy' : opt_gather (option_map (fun y => singles (full y)) ls) (map Z.of_nat K) = Ok (option_map (fun y => singles (map (fun i => nth i y (-1)) K)) ls)).
    { destruct ls as [y|]; [|reflexivity]; cbn [option_map opt_gather]; rewrite (Gy y eq_refl); reflexivity. }
    rewrite Gy'; reflexivity. }
  cbn [s_x s_y s_masks s_edges]; split; [reflexivity|split; [exact PX|split; [reflexivity|split; [reflexivity|split; [intros _; exact H2|intros _; exact H3]]]]].
Qed.
End Shuffles.

(* C157.  Edges given as rows of pairs are read as if transposed, unless there are exactly two of them. *)
Theorem C157_layout {A} shuffle (g : graph A) pairs cf max seed : length pairs <> 2%nat -> pairs <> [] ->
  load_graph shuffle {| g_x := g_x g; g_y := g_y g; g_edges := Some (map (fun p => [fst p; snd p]) pairs); g_masks := g_masks g |} cf max seed =
  load_graph shuffle {| g_x := g_x g; g_y := g_y g; g_edges := Some [map fst pairs; map snd pairs]; g_masks := g_masks g |} cf max seed.
Proof.
  intros N2 N0; unfold load_graph; cbn [g_x g_y g_edges g_masks]; cbv zeta.
  destruct (match g_y g with Some y => _ | None => _ end) as [y|e]; [|reflexivity]; cbn [bind].
  match goal with |- subset_graph _ ?k = _ => generalize k end; intros keep.
  unfold subset_graph; destruct keep as [|k ks]; [reflexivity|]; cbn [g_x g_y g_edges g_masks]; cbv zeta.
  destruct (set_all _ _ _) as [m|]; [|reflexivity]; cbn [bind]; f_equal.
  unfold kept_edges.
  destruct pairs as [|(a, b) [|(c, d) [|(e, f) r]]]; [destruct (N0 eq_refl)|reflexivity|destruct (N2 eq_refl)|].
  destruct (Nat.eqb_spec (length (concat (map (fun p : Z * Z => [fst p; snd p]) ((a, b) :: (c, d) :: (e, f) :: r)))) 0) as [H|_]; [discriminate|].
  destruct (Nat.eqb_spec (length (concat [map fst ((a, b) :: (c, d) :: (e, f) :: r); map snd ((a, b) :: (c, d) :: (e, f) :: r)])) 0) as [H|_]; [discriminate|].
  f_equal.
  set (l := (a, b) :: (c, d) :: (e, f) :: r).
  assert (F : forallb (fun r0 : list Z => Nat.eqb (length r0) 2) (map (fun p : Z * Z => [fst p; snd p]) l) = true) by (clearbody l; induction l; [reflexivity|exact IHl]).
  transitivity (@Ok (list Z * list Z) (map (fun r0 => nth 0 r0 0) (map (fun p : Z * Z => [fst p; snd p]) l), map (fun r0 => nth 1 r0 0) (map (fun p : Z * Z => [fst p; snd p]) l))).
  - unfold rows_of_edges, l in *; cbn [map fst snd] in F |- *; rewrite F; reflexivity.
  - cbn [rows_of_edges]; f_equal; rewrite !map_map; reflexivity.
Qed.

(* C157.  When no node is kept (and so for every graph that comes without features and labels) the edges and the masks are gone. *)
Theorem C157_nothing_kept_refuted {A} shuffle :
  (forall edges masks cf max seed, (forall m, max = Some m -> 0 <= m) -> load_graph (A := A) shuffle {| g_x := None; g_y := None; g_edges := edges; g_masks := masks |} cf max seed
     = Ok {| s_x := None; s_y := None; s_edges := None; s_masks := [] |}) /\
  (forall (X : list A) edges masks seed, load_graph shuffle {| g_x := Some X; g_y := None; g_edges := edges; g_masks := masks |} None (Some 0) seed
     = Ok {| s_x := Some []; s_y := None; s_edges := None; s_masks := [] |}).
Proof.
  split.
  - intros edges masks cf max seed Hm; unfold load_graph; cbn [g_x g_y g_edges g_masks bind opt_rows]; cbv zeta; change (arange (Z.of_nat 0)) with (@nil Z).
    replace (match cf with Some _ | _ => @nil Z end) with (@nil Z) by (destruct cf; reflexivity).
    destruct max as [m|]; [|reflexivity]; specialize (Hm m eq_refl); cbn [length]; destruct (Z.ltb_spec m (Z.of_nat 0)); [lia|reflexivity].
  - intros X edges masks seed; unfold load_graph; cbn [g_x g_y g_edges g_masks bind]; cbv zeta.
    rewrite arange_length, Nat2Z.id; destruct (Z.ltb_spec 0 (Z.of_nat (length X))); [reflexivity|].
    destruct X; [reflexivity|cbn in *; lia].
Qed.

(* C157.  A mask with several columns (one per public split) is read row by row as one long mask: node i gets entry i of that, which need not be
   its entry in any column. *)
Theorem C157_mask_columns_refuted {A} shuffle (X : list A) k (m : list (list bool)) : X <> [] -> (1 <= k)%nat -> length m = length X -> Forall (fun r => length r = k) m ->
  (exists s, load_graph shuffle {| g_x := Some X; g_y := None; g_edges := None; g_masks := [("train", m)] |} None None None = Ok s /\ s_masks s = [("train", map (fun i => nth (i mod k) (nth (i / k) m []) false) (seq 0 (length X)))]) /\
  (forall a b : A, exists m2 s m', load_graph shuffle {| g_x := Some [a; b]; g_y := None; g_edges := None; g_masks := [("train", m2)] |} None None None = Ok s /\
     Forall (fun r => length r = 2%nat) m2 /\ length m2 = 2%nat /\ s_masks s = [("train", m')] /\ forall j, m' <> map (fun r => nth j r false) m2).
Proof.
  intros NX Hk Lm Fm; split.
  - unfold load_graph; cbn [g_x g_y g_edges g_masks bind]; cbv zeta.
    assert (Ea : arange (Z.of_nat (length X)) = map Z.of_nat (seq 0 (length X))) by (unfold arange; rewrite Nat2Z.id; reflexivity).
    rewrite Ea; set (K := seq 0 (length X)).
    assert (Lc : length (concat m) = (length X * k)%nat).
    { rewrite <- Lm; clear - Fm; induction Fm as [|r m E _ IH]; [reflexivity|]; cbn [concat length]; rewrite app_length, IH, E; lia. }
    assert (Nc : forall i, nth i (concat m) false = nth (i mod k) (nth (i / k) m []) false).
    { clear - Fm Hk; induction Fm as [|r m E _ IH]; intros i; cbn [concat].
      - destruct (i / k)%nat; [|destruct n]; destruct i; destruct (_ mod k)%nat; reflexivity.
      - destruct (Nat.ltb_spec i k).
        + rewrite app_nth1 by lia; rewrite Nat.mod_small, Nat.div_small by assumption; reflexivity.
        + rewrite app_nth2 by lia; rewrite E, IH.
          replace i with ((i - k) + 1 * k)%nat at 3 4 by lia; rewrite Nat.mod_add, Nat.div_add by lia; rewrite Nat.add_1_r; reflexivity. }
    assert (InK : forall i, In i K -> (i < length X)%nat) by (intros i Hi; apply in_seq in Hi; lia).
    rewrite subset_some by (unfold K; destruct X; [destruct (NX eq_refl)|discriminate]); cbn [g_x g_y g_edges g_masks opt_rows]; cbv zeta.
    rewrite Nat.max_0_r.
    destruct (set_all_ok (repeat (-1) (length X)) K 0 (seq_NoDup _ _)) as (m' & Em & _); [intros i Hi; rewrite repeat_length; auto|].
    rewrite Em; cbn [bind kept_edges masks_of]; unfold mask_of; cbv zeta.
    destruct (Nat.ltb_spec (length (concat m)) (length X)); [nia|].
    rewrite (proj2 (gather_picks (concat m) K _) (map_picks (concat m) K false ltac:(intros i Hi; specialize (InK i Hi); lia))); cbn [bind opt_gather].
    destruct (picks_exists X K InK) as (X' & PX); rewrite (proj2 (gather_picks X K X') PX); cbn [bind].
    eexists; split; [reflexivity|]; cbn [s_masks]; do 2 f_equal; apply map_ext; intros i; apply Nc.
  - intros a b; exists [[true; false]; [true; false]], {| s_x := Some [a; b]; s_y := None; s_edges := None; s_masks := [("train", [true; false])] |}, [true; false].
    split; [reflexivity|split; [repeat constructor|split; [reflexivity|split; [reflexivity|]]]]; intros j; destruct j as [|[|[|j]]]; discriminate.
Qed.

(* C157.  With several labels per node a node is kept once for each label that passes the filter. *)
Theorem C157_many_labels_refuted {A} shuffle (a b : A) :
  exists s, load_graph shuffle {| g_x := Some [a; b]; g_y := Some [[1; 2]; [0; 0]]; g_edges := None; g_masks := [] |} (Some [1; 2]) None None = Ok s /\ s_x s = Some [a; a].
Proof. eexists; split; reflexivity. Qed.

(* C157.  A negative limit does not mean no nodes: that many are dropped from the end. *)
Theorem C157_negative_limit_refuted {A} shuffle (X : list A) k : 0 < k < Z.of_nat (length X) ->
  exists s, load_graph shuffle {| g_x := Some X; g_y := None; g_edges := None; g_masks := [] |} None (Some (- k)) None = Ok s /\ s_x s = Some (firstn (length X - Z.to_nat k) X).
Proof.
  intros Hk; unfold load_graph; cbn [g_x g_y g_edges g_masks bind]; cbv zeta.
  rewrite arange_length, Nat2Z.id; destruct (Z.ltb_spec (- k) (Z.of_nat (length X))); [|lia].
  unfold upto; destruct (Z.ltb_spec (- k) 0); [|lia]; rewrite arange_length, Nat2Z.id.
  replace (Z.to_nat (Z.of_nat (length X) + - k)) with (length X - Z.to_nat k)%nat by lia; set (t := (length X - Z.to_nat k)%nat).
  assert (Ea : firstn t (arange (Z.of_nat (length X))) = map Z.of_nat (seq 0 t)).
  { unfold arange; rewrite Nat2Z.id, firstn_map; f_equal; replace (length X) with (t + (length X - t))%nat by (unfold t; lia); rewrite seq_app, firstn_app, seq_length, Nat.sub_diag; cbn [firstn]; rewrite app_nil_r; apply firstn_all2; rewrite seq_length; lia. }
  rewrite Ea, sortZ_of_ascending by (apply of_nat_ascending, seq_sorted).
  set (K := seq 0 t); assert (InK : forall i, In i K -> (i < length X)%nat) by (intros i Hi; apply in_seq in Hi; unfold t in Hi; lia).
  rewrite subset_some by (intros Ez; apply (f_equal (@length Z)) in Ez; unfold K in Ez; rewrite map_length, seq_length in Ez; cbn in Ez; unfold t in Ez; lia).
  cbn [g_x g_y g_edges g_masks opt_rows]; cbv zeta; rewrite Nat.max_0_r.
  destruct (set_all_ok (repeat (-1) (length X)) K 0 (seq_NoDup _ _)) as (m' & Em & _); [intros i Hi; rewrite repeat_length; auto|].
  rewrite Em; cbn [bind kept_edges masks_of opt_gather].
  assert (PX : picks X K (firstn t X)).
  { pose proof (picks_all (firstn t X)) as P; rewrite firstn_length, Nat.min_l in P by (unfold t; lia); fold K in P; clear - P InK.
    induction P as [|i a q r E _ IH]; constructor; [|apply IH; intros j Hj; apply InK; right; exact Hj].
    rewrite <- E, <- (firstn_skipn t X) at 1; apply nth_error_app1; apply nth_error_Some; congruence. }
  rewrite (proj2 (gather_picks X K _) PX); cbn [bind]; eexists; split; reflexivity.
Qed.

(* C157.  An edge list without edges comes back as no edge list. *)
Theorem C157_no_edges_refuted {A} shuffle (a : A) : exists s,
  load_graph shuffle {| g_x := Some [a]; g_y := None; g_edges := Some [[]; []]; g_masks := [] |} None None None = Ok s /\ s_edges s = None.
Proof. eexists; split; reflexivity. Qed.

(* C157.  Edges with negative node numbers are not refused: -1 is the last node, and so on. *)
Theorem C157_negative_nodes_refuted {A} shuffle (X : list A) j seed : 0 < j ->
  (j <= Z.of_nat (length X) -> exists s, load_graph shuffle {| g_x := Some X; g_y := None; g_edges := Some [[- j]; [0]]; g_masks := [] |} None None seed = Ok s /\ s_edges s = Some [(Z.of_nat (length X) - j, 0)]) /\
  (X <> [] -> Z.of_nat (length X) < j -> load_graph shuffle {| g_x := Some X; g_y := None; g_edges := Some [[- j]; [0]]; g_masks := [] |} None None seed = Err IndexError).
Proof.
  intros Hj.
  assert (Ea : arange (Z.of_nat (length X)) = map Z.of_nat (seq 0 (length X))) by (unfold arange; rewrite Nat2Z.id; reflexivity).
  set (K := seq 0 (length X)) in *; assert (InK : forall i, In i K -> (i < length X)%nat) by (intros i Hi; apply in_seq in Hi; lia).
  destruct (set_all_ok (repeat (-1) (length X)) K 0 (seq_NoDup _ _)) as (m' & Em & Lm & _ & Jm); [intros i Hi; rewrite repeat_length; auto|]; rewrite repeat_length in Lm.
  assert (Nm : forall i, (i < length X)%nat -> nth_error m' i = Some (Z.of_nat i)).
  { intros i Hi; rewrite (nth_error_nth' _ (-1)) by lia; f_equal; rewrite (Jm i i); [lia|]; unfold K; rewrite (nth_error_nth' _ 0%nat) by (rewrite seq_length; exact Hi); rewrite seq_nth by exact Hi; reflexivity. }
  assert (L : X <> [] -> forall r, load_graph shuffle {| g_x := Some X; g_y := None; g_edges := Some [[- j]; [0]]; g_masks := [] |} None None seed = r <->
    (do e <- kept_edges m' (Some [[- j]; [0]]); do x <- opt_gather (Some X) (map Z.of_nat K); Ok {| s_x := x; s_y := None; s_edges := e; s_masks := [] |}) = r).
  { intros NX r; unfold load_graph; cbn [g_x g_y g_edges g_masks bind]; cbv zeta; rewrite Ea.
    rewrite subset_some by (unfold K; destruct X; [destruct (NX eq_refl)|discriminate]); cbn [g_x g_y g_edges g_masks opt_rows]; cbv zeta; rewrite Nat.max_0_r, Em; cbn [bind masks_of opt_gather]; reflexivity. }
  destruct (picks_exists X K InK) as (X' & PX).
  split.
  - intros Hl; assert (NX : X <> []) by (intros ->; cbn in Hl; lia); eexists; split; [apply (L NX); cbn [opt_gather]; rewrite (proj2 (gather_picks X K X') PX)|].
    + unfold kept_edges; cbn [concat app length Nat.eqb rows_of_edges bind gather]; unfold at_z.
      destruct (Z.ltb_spec (- j) 0); [|lia]; cbv zeta; rewrite Lm; destruct (Z.ltb_spec (- j + Z.of_nat (length X)) 0); [lia|].
      rewrite Nm by lia; cbn [bind Z.ltb Z.compare]; change (Z.to_nat 0) with 0%nat; rewrite Nm by lia; cbn [bind combine filter fst snd].
      destruct (Z.leb_spec 0 (Z.of_nat (Z.to_nat (- j + Z.of_nat (length X))))); [|lia]; cbn [andb]; reflexivity.
    + cbn [s_edges]; rewrite Z2Nat.id by lia; replace (- j + Z.of_nat (length X)) with (Z.of_nat (length X) - j) by lia; reflexivity.
  - intros NX Hl; apply (L NX); unfold kept_edges; cbn [concat app length Nat.eqb rows_of_edges bind gather]; unfold at_z.
    destruct (Z.ltb_spec (- j) 0); [|lia]; cbv zeta; rewrite Lm; destruct (Z.ltb_spec (- j + Z.of_nat (length X)) 0); [reflexivity|lia].
Qed.

(* ----- instances ----- *)
Definition px_shuffle (s : Z) (n : nat) : list nat := if Z.even s then seq 0 n else rev (seq 0 n).
Example px_shuffle_ok : forall s n, Permutation (px_shuffle s n) (seq 0 n).
Proof. intros s n; unfold px_shuffle; destruct (Z.even s); [reflexivity|apply Permutation_sym, Permutation_rev]. Qed.
Example px_limits : apply_limits px_shuffle (Some [1; 3]) (Some 2) (Some 7) [10; 20; 30; 40; 50] [1; 2; 3; 1; 2] = Ok ([40; 30], [1; 3]).
Proof. reflexivity. Qed.
Example px_splits : load_splits px_shuffle None (Some 2) (Some 1) (Some 7) ([10; 20; 30], [1; 2; 3]) (Some ([40; 50], [1; 2])) = Ok (([30; 20], [3; 2]), Some ([40], [1])).
Proof. reflexivity. Qed.
Example px_graph : load_graph px_shuffle {| g_x := Some [10; 20; 30; 40]; g_y := Some (singles [1; 2; 1]); g_edges := Some [[0; 1; 2; 3; 3]; [2; 0; 3; 0; 2]]; g_masks := [("train", singles [true; false; true])] |}
  (Some [1; -1]) (Some 2) (Some 7) = Ok {| s_x := Some [30; 40]; s_y := Some [[1]; [-1]]; s_edges := Some [(0, 1); (1, 0)]; s_masks := [("train", [true; false])] |}.
Proof. reflexivity. Qed.
Example px_layout : load_graph px_shuffle {| g_x := Some [10; 20]; g_y := None; g_edges := Some [[0; 1]; [1; 1]; [1; 0]]; g_masks := [] |} None None None
  = Ok {| s_x := Some [10; 20]; s_y := None; s_edges := Some [(0, 1); (1, 1); (1, 0)]; s_masks := [] |}.
Proof. reflexivity. Qed.
Print Assumptions C156_limits.
Print Assumptions C156_splits.
Print Assumptions C156_unaligned_refuted.
Print Assumptions C157_subset.
Print Assumptions C157_layout.
Print Assumptions C157_nothing_kept_refuted.
Print Assumptions C157_mask_columns_refuted.
Print Assumptions C157_many_labels_refuted.
Print Assumptions C157_negative_limit_refuted.
Print Assumptions C157_no_edges_refuted.
Print Assumptions C157_negative_nodes_refuted.
