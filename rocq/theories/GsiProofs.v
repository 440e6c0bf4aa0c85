From Coq Require Import String QArith Lia ZifyBool ZifyNat.
From Verif Require Import Prelude ListFacts BundleProofs GsiModel GsiSpec.
Local Open Scope string_scope.
Local Open Scope Z_scope.
Local Open Scope list_scope.
Local Notation length := List.length.

Lemma maxl_spec l d : In (maxl d l) (d :: l) /\ forall x, In x (d :: l) -> x <= maxl d l.
Proof.
  revert d; induction l as [|a l IH]; intros d; cbn [maxl]; [split; [left; reflexivity|intros x [->|[]]; lia]|].
  destruct (IH (Z.max d a)) as (H1 & H2); split.
  - destruct H1 as [H1|H1]; [|right; right; exact H1]; rewrite <- H1; destruct (Z.max_spec d a) as [(_ & ->)|(_ & ->)]; [right; left; reflexivity|left; reflexivity].
  - intros x [->|[->|Hx]]; [specialize (H2 (Z.max x a) (or_introl eq_refl)); lia|specialize (H2 (Z.max d x) (or_introl eq_refl)); lia|apply H2; right; exact Hx].
Qed.
Lemma one_above_max l0 lr k : one_above k (l0 :: lr) <-> k = maxl l0 lr + 1.
Proof.
  destruct (maxl_spec lr l0) as (H1 & H2); split.
  - intros (A & B); specialize (H2 _ A); specialize (B _ H1); lia.
  - intros ->; split; [replace (maxl l0 lr + 1 - 1) with (maxl l0 lr) by lia; exact H1|intros x Hx; specialize (H2 x Hx); lia].
Qed.
Lemma edges_in_spec n e : edges_in n e = true <-> ends_in n e.
Proof.
  unfold edges_in, ends_in; rewrite forallb_forall; split.
  - intros H u v Hi; specialize (H _ Hi); cbn in H; lia.
  - intros H (u, v) Hi; specialize (H u v Hi); cbn; lia.
Qed.
Lemma coerce_dict X w rows e : graph_input X w rows e -> forall b, coerce X b = Ok {| n_w := w; n_rows := rows; n_edges := e |}.
Proof. intros (src & dst & ew & -> & ->) b; reflexivity. Qed.
Lemma coerce_strict X d : coerce X false = Ok d <-> graph_input X (n_w d) (n_rows d) (n_edges d).
Proof.
  split; [|intros H; rewrite (coerce_dict _ _ _ _ H); destruct d; reflexivity].
  destruct X as [[x|] [e|] ew|x|]; cbn; try discriminate; destruct x as [w rows|], e as [src dst|]; try discriminate.
  intros [= <-]; exists src, dst, ew; split; reflexivity.
Qed.
Lemma resolve_known act lower name : (exists a, resolve act lower name = Ok a) <-> known lower name.
Proof.
  unfold resolve, known; cbv zeta; cbn [In].
  destruct (String.eqb_spec (lower name) "relu") as [->|H1]; [split; [auto|eauto]|].
  destruct (String.eqb_spec (lower name) "gelu") as [->|H2]; [split; [auto|eauto]|].
  destruct (String.eqb_spec (lower name) "tanh") as [->|H3]; [split; [auto|eauto]|].
  split; [intros (a & [=])|intros [H|[H|[H|[]]]]; congruence].
Qed.
Lemma sizes_sign c w k : 0 <= k -> existsb (fun z => z <? 0) (layer_sizes c w k) = false <-> no_negative c.
Proof.
  intros Hk; unfold layer_sizes, no_negative.
  assert (G : forall l, existsb (fun z => z <? 0) (Z.of_nat w :: l ++ [k]) = false <-> Forall (fun z => 0 <= z) l).
  { intros l; cbn [existsb]; rewrite existsb_app; cbn [existsb].
    destruct (Z.ltb_spec (Z.of_nat w) 0); [lia|]; destruct (Z.ltb_spec k 0); [lia|]; cbn [orb]; rewrite orb_false_r.
    induction l as [|a l IH]; [split; [constructor|reflexivity]|]; cbn [existsb]; rewrite Forall_cons_iff, orb_false_iff, IH; split; intros (A & B); (split; [lia|exact B]). }
  assert (G2 : existsb (fun z => z <? 0) (Z.of_nat w :: repeat (c_hidden c) (Z.to_nat (c_layers c - 1)) ++ [k]) = false <-> 0 <= c_hidden c \/ c_layers c <= 1).
  { rewrite G; destruct (Z.to_nat (c_layers c - 1)) as [|n] eqn:E; [split; [intros _; right; lia|constructor]|].
    split; [intros F; inversion F; left; assumption|intros [H|H]; [|lia]]; apply Forall_forall; intros x Hx; apply repeat_spec in Hx; lia. }
  destruct (c_sizes c) as [[|a r]|]; [exact G2|apply G|exact G2].
Qed.

(* ----- locality ----- *)
Lemma nodes_nth rows u : 0 <= u < Z.of_nat (length rows) -> nth_error (nodes rows) (Z.to_nat u) = Some u.
Proof.
  intros H; unfold nodes, arange; rewrite nth_error_map, Nat2Z.id; rewrite (nth_error_nth' _ 0%nat) by (rewrite seq_length; lia); rewrite seq_nth by lia; cbn [option_map]; f_equal; lia.
Qed.
Lemma row_mapped f rows u : 0 <= u < Z.of_nat (length rows) -> row_at (map f (nodes rows)) u = f u.
Proof.
  intros H; unfold row_at; apply nth_error_nth; rewrite nth_error_map, nodes_nth by exact H; reflexivity.
Qed.
Lemma nodes_length rows : length (nodes rows) = length rows.
Proof. unfold nodes; rewrite arange_length; lia. Qed.
Lemma sources_in e u v : In u (sources e v) <-> In (u, v) e.
Proof.
  unfold sources; rewrite in_map_iff; split.
  - intros ((a, b) & <- & H); apply filter_In in H; destruct H as (H & E); cbn in E; apply Z.eqb_eq in E; subst b; exact H.
  - intros H; exists (u, v); split; [reflexivity|]; apply filter_In; split; [exact H|cbn; apply Z.eqb_refl].
Qed.
Lemma conv_local ly w rows1 rows2 e1 e2 v : row_at rows1 v = row_at rows2 v -> sources e1 v = sources e2 v ->
  (forall u, In u (sources e1 v) -> row_at rows1 u = row_at rows2 u) -> conv_at ly w rows1 e1 v = conv_at ly w rows2 e2 v.
Proof. intros H1 H2 H3; unfold conv_at; cbv zeta; rewrite <- H2, H1, (map_ext_in _ _ _ H3); reflexivity. Qed.
Lemma forward_length a ls w rows e : length (forward a ls w rows e) = length rows.
Proof.
  revert w rows; induction ls as [|ly [|ly' r] IH]; intros w rows; [reflexivity|cbn [forward]; rewrite map_length; apply nodes_length|].
  change (forward a (ly :: ly' :: r) w rows e) with (forward a (ly' :: r) (length (l_bias ly)) (map (fun v => map a (conv_at ly w rows e v)) (nodes rows)) e).
  rewrite IH, map_length; apply nodes_length.
Qed.
Lemma forward_local a ls e1 e2 v : forall w rows1 rows2,
  (forall k u, walk e1 v k u -> (k <= length ls)%nat -> 0 <= u < Z.of_nat (length rows1) /\ 0 <= u < Z.of_nat (length rows2) /\ row_at rows1 u = row_at rows2 u) ->
  (forall k u, walk e1 v k u -> (k < length ls)%nat -> sources e1 u = sources e2 u) ->
  row_at (forward a ls w rows1 e1) v = row_at (forward a ls w rows2 e2) v.
Proof.
  assert (C : forall ly w rows1 rows2 n, (forall k u, walk e1 v k u -> (k <= S n)%nat -> 0 <= u < Z.of_nat (length rows1) /\ 0 <= u < Z.of_nat (length rows2) /\ row_at rows1 u = row_at rows2 u) ->
    (forall k u, walk e1 v k u -> (k < S n)%nat -> sources e1 u = sources e2 u) ->
    forall k u, walk e1 v k u -> (k <= n)%nat -> conv_at ly w rows1 e1 u = conv_at ly w rows2 e2 u).
  { intros ly w rows1 rows2 n HR HS k u Hw Hk; apply conv_local; [apply (HR k u Hw); lia|apply (HS k u Hw); lia|].
    intros x Hx; apply sources_in in Hx; apply (HR (S k) x); [eapply walk_step; eassumption|lia]. }
  induction ls as [|ly [|ly' r] IH]; intros w rows1 rows2 HR HS.
  - cbn [forward]; apply (HR 0%nat v); [constructor|lia].
  - cbn [forward]; destruct (HR 0%nat v (walk_here _ _)) as (B1 & B2 & _); [cbn; lia|].
    rewrite !row_mapped by assumption; apply (C ly w rows1 rows2 0%nat HR HS 0%nat v (walk_here _ _)); lia.
  - change (forward a (ly :: ly' :: r) w rows1 e1) with (forward a (ly' :: r) (length (l_bias ly)) (map (fun v => map a (conv_at ly w rows1 e1 v)) (nodes rows1)) e1).
    change (forward a (ly :: ly' :: r) w rows2 e2) with (forward a (ly' :: r) (length (l_bias ly)) (map (fun v => map a (conv_at ly w rows2 e2 v)) (nodes rows2)) e2).
    apply IH.
    + intros k u Hw Hk; destruct (HR k u Hw) as (B1 & B2 & _); [cbn [length] in *; lia|].
      rewrite !map_length, !nodes_length; split; [exact B1|split; [exact B2|]]; rewrite !row_mapped by assumption; f_equal.
      apply (C ly w rows1 rows2 (length (ly' :: r)) HR HS k u Hw Hk).
    + intros k u Hw Hk; apply (HS k u Hw); cbn [length] in *; lia.
Qed.

(* ----- widths ----- *)
Lemma conv_width ly w rows e v b : length (l_nb ly) = b -> length (l_bias ly) = b -> length (l_self ly) = b -> length (conv_at ly w rows e v) = b.
Proof. intros H1 H2 H3; unfold conv_at; cbv zeta; rewrite map_length, !combine_length; lia. Qed.
Lemma forward_width a sizes ls : fits sizes ls -> ls <> [] -> forall w rows e r, In r (forward a ls w rows e) -> length r = Z.to_nat (last sizes 0).
Proof.
  intros F; induction F as [k|x b r ly ls H1 H2 H3 F IH]; intros N w rows e row Hr; [destruct (N eq_refl)|].
  destruct ls as [|ly' ls'].
  - inversion F; subst; cbn [forward] in Hr; apply in_map_iff in Hr; destruct Hr as (v & <- & _); cbn [last]; apply conv_width; assumption.
  - change (last (x :: b :: r) 0) with (last (b :: r) 0); eapply IH; [discriminate|].
    change (forward a (ly :: ly' :: ls') w rows e) with (forward a (ly' :: ls') (length (l_bias ly)) (map (fun v => map a (conv_at ly w rows e v)) (nodes rows)) e) in Hr; exact Hr.
Qed.
Lemma sizes_last c w k : last (layer_sizes c w k) 0 = k.
Proof.
  unfold layer_sizes; assert (G : forall l, last (Z.of_nat w :: l ++ [k]) 0 = k) by (intros l; rewrite app_comm_cons; apply last_last).
  destruct (c_sizes c) as [[|a r]|]; apply G.
Qed.
Lemma sizes_two c w k : exists a b r, layer_sizes c w k = a :: b :: r.
Proof.
  unfold layer_sizes; destruct (c_sizes c) as [[|a r]|].
  - destruct (repeat (c_hidden c) (Z.to_nat (c_layers c - 1))); do 3 eexists; reflexivity.
  - do 3 eexists; reflexivity.
  - destruct (repeat (c_hidden c) (Z.to_nat (c_layers c - 1))); do 3 eexists; reflexivity.
Qed.
