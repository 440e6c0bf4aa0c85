From Coq Require Import List ZArith Lia Bool QArith Permutation Lqa ZifyBool ZifyNat.
From Verif Require Import Prelude ListFacts SamplingSpec SampleServiceProofs EnsembleModel S4vmProofs AugModel AugSpec AugTextProofs.
Import ListNotations.
Open Scope Z_scope.

(* ----- refill ----- *)
Lemma fill2_spec l : forall v, (length (concat l) <= length v)%nat ->
  concat (fst (fill2 l v)) = firstn (length (concat l)) v /\ snd (fill2 l v) = skipn (length (concat l)) v /\ map (@length Q) (fst (fill2 l v)) = map (@length Q) l.
Proof.
  induction l as [|r l IH]; intros v H; cbn [fill2]; [cbn; auto|]. unfold fill1. cbn [concat] in H. rewrite app_length in H.
  destruct (IH (skipn (length r) v)) as (A & B & C); [rewrite skipn_length; lia|]. destruct (fill2 l (skipn (length r) v)) as [rest v2]. cbn [fst snd] in *.
  cbn [concat map]. rewrite A, B, C, app_length. split; [|split].
  - clear. revert v. induction (length r) as [|n IH]; intros v; cbn; [reflexivity|]. destruct v as [|q v]; cbn; [now rewrite firstn_nil|]. f_equal. apply IH.
  - clear. revert v. induction (length r) as [|n IH]; intros v; cbn; [reflexivity|]. destruct v as [|q v]; cbn; [now rewrite skipn_nil|]. apply IH.
  - f_equal. rewrite firstn_length. lia.
Qed.

Lemma firstn_plus {A} n m (v : list A) : firstn n v ++ firstn m (skipn n v) = firstn (n + m) v.
Proof. revert v. induction n as [|n IH]; intros [|a v]; cbn; auto; [now rewrite firstn_nil|]. f_equal. apply IH. Qed.
Lemma skipn_plus {A} n m (v : list A) : skipn m (skipn n v) = skipn (n + m) v.
Proof. revert v. induction n as [|n IH]; intros [|a v]; cbn; auto. now rewrite skipn_nil. Qed.

Lemma fill3_spec l : forall v, (length (concat (map (@concat Q) l)) <= length v)%nat ->
  concat (map (@concat Q) (fst (fill3 l v))) = firstn (length (concat (map (@concat Q) l))) v /\ map (map (@length Q)) (fst (fill3 l v)) = map (map (@length Q)) l.
Proof.
  induction l as [|r l IH]; intros v H; cbn [fill3]; [cbn; auto|]. cbn [map concat] in H. rewrite app_length in H.
  destruct (fill2_spec r v) as (A & B & C); [lia|]. destruct (fill2 r v) as [r' v1]. cbn [fst snd] in *. subst v1.
  destruct (IH (skipn (length (concat r)) v)) as (A' & C'); [rewrite skipn_length; lia|]. destruct (fill3 l (skipn (length (concat r)) v)) as [rest v2]. cbn [fst snd] in *.
  cbn [map concat]. rewrite A, A', C, C', app_length, firstn_plus. auto.
Qed.

Lemma refill_spec t v : length v = size t -> flat (refill t v) = v /\ same_shape t (refill t v).
Proof.
  unfold size. destruct t as [l|l|l]; cbn [flat refill]; intros H.
  - unfold fill1. cbn [fst same_shape]. rewrite <- H, firstn_all. auto.
  - destruct (fill2_spec l v ltac:(lia)) as (A & _ & C). cbn [same_shape]. rewrite A, C, <- H, firstn_all. auto.
  - destruct (fill3_spec l v ltac:(lia)) as (A & C). cbn [same_shape]. rewrite A, C, <- H, firstn_all. auto.
Qed.

Lemma map2_length {A B C} (f : A -> B -> C) la : forall lb, length la = length lb -> length (map2 f la lb) = length la.
Proof. induction la as [|a la IH]; intros [|b lb] H; cbn in *; try lia; auto. Qed.
Lemma map2_nth {A B C} (f : A -> B -> C) la da db dc : forall lb i, length la = length lb -> (i < length la)%nat -> nth i (map2 f la lb) dc = f (nth i la da) (nth i lb db).
Proof. induction la as [|a la IH]; intros [|b lb] [|i] H Hi; cbn in *; try lia; auto. apply IH; lia. Qed.

(* entry by entry, with draws us *)
Lemma entrywise {B} (f : Q -> B -> Q) t (us : list B) d : length us = size t ->
  same_shape t (refill t (map2 f (flat t) us)) /\
  forall i, (i < size t)%nat -> nth i (flat (refill t (map2 f (flat t) us))) 0%Q = f (nth i (flat t) 0%Q) (nth i us d).
Proof.
  intros H. destruct (refill_spec t (map2 f (flat t) us)) as [E S]; [rewrite map2_length; unfold size in *; lia|]. split; [exact S|].
  intros i Hi. rewrite E. apply map2_nth; unfold size in *; lia.
Qed.

(* ----- roll ----- *)
Lemma nth_error_skipn {A} n : forall (l : list A) i, nth_error (skipn n l) i = nth_error l (n + i).
Proof. induction n as [|n IH]; intros [|a l] i; cbn; auto. now destruct i. Qed.
Lemma nth_error_firstn {A} n : forall (l : list A) i, (i < n)%nat -> nth_error (firstn n l) i = nth_error l i.
Proof. induction n as [|n IH]; intros l i H; [lia|]. destruct l as [|a l]; [reflexivity|]. destruct i as [|i]; cbn; [reflexivity|]. apply IH. lia. Qed.

Lemma roll_length {A} k (l : list A) : length (roll k l) = length l.
Proof. unfold roll. rewrite app_length, skipn_length, firstn_length. lia. Qed.

Lemma roll_rotated {A} k (l : list A) : rotated k l (roll k l).
Proof.
  split; [apply roll_length|]. intros i Hi. set (n := Z.of_nat (length l)). assert (Hn : 0 < n) by (unfold n; lia).
  unfold roll, lenZ. fold n. set (m := (- k) mod n). assert (Hm : 0 <= m < n) by (apply Z.mod_pos_bound; lia).
  assert (Eq : (Z.of_nat i + k) mod n = (Z.of_nat i - m) mod n).
  { unfold m. rewrite <- (Zminus_mod_idemp_r (Z.of_nat i)), Zmod_mod, Zminus_mod_idemp_r. f_equal. lia. }
  rewrite Eq. destruct (Z_lt_le_dec (Z.of_nat i) m) as [L|L].
  - assert (E2 : (Z.of_nat i - m) mod n = Z.of_nat i - m + n).
    { rewrite <- (Z_mod_plus_full _ 1). rewrite Z.mul_1_l. apply Z.mod_small. unfold n in *. lia. }
    rewrite E2. rewrite nth_error_app2; rewrite skipn_length; [|unfold n in *; lia].
    rewrite nth_error_firstn by (unfold n in *; lia). f_equal. unfold n in *. lia.
  - assert (E2 : (Z.of_nat i - m) mod n = Z.of_nat i - m) by (apply Z.mod_small; unfold n in *; lia).
    rewrite E2. rewrite nth_error_app1; [|rewrite skipn_length; unfold n in *; lia]. rewrite nth_error_skipn. f_equal. lia.
Qed.


Lemma time_shift_spec G f t s0 : draws_ok G -> (0 <= f)%Q -> (f <= 1)%Q ->
  exists t' s1 m k, time_shift G f t s0 = Ok (t', s1) /\ same_shape t t' /\
    nearest_even (f * inject_Z (Z.of_nat (last_dim t)))%Q m /\ Z.abs k <= m /\ Forall2 (rotated k) (rows_of t) (rows_of t').
Proof.
  intros ok F0 F1. unfold time_shift. rewrite (in01_ok f F0 F1). set (q := (f * inject_Z (Z.of_nat (last_dim t)))%Q).
  pose proof (round_even_nearest q) as N. assert (Q0 : (0 <= q)%Q).
  { unfold q. apply Qmult_le_0_compat; [exact F0|]. change 0%Q with (inject_Z 0). rewrite <- Zle_Qle. lia. }
  assert (M0 : 0 <= round_even q) by (apply (nearest_even_lower q _ 0 N); exact Q0).
  assert (R0 : forall {A} (l : list A), rotated 0 l l).
  { intros A l. split; [reflexivity|]. intros i Hi. rewrite Z.add_0_r, Z.mod_small by lia. now rewrite Nat2Z.id. }
  assert (SS : forall t, same_shape t t) by (intros [l|l|l]; reflexivity).
  destruct (Qeq_bool f 0) eqn:E.
  - exists t, s0, (round_even q), 0. split; [reflexivity|]. split; [apply SS|]. split; [exact N|]. split; [cbn; lia|].
    induction (rows_of t); constructor; auto.
  - destruct (g_int G (- round_even q) (round_even q + 1) s0) as [k s1] eqn:Eg. destruct ok as (_ & _ & I & _).
    pose proof (I (- round_even q) (round_even q + 1) s0 ltac:(lia)) as Hk. rewrite Eg in Hk. cbn [fst] in Hk.
    eexists. exists s1, (round_even q), k. split; [reflexivity|]. split; [|split; [exact N|split; [lia|]]].
    + destruct t as [l|l|l]; cbn [same_shape]; [symmetry; apply roll_length| |]; rewrite !map_map; apply map_ext; intros r; rewrite ?map_map.
      * symmetry. apply roll_length.
      * apply map_ext. intros; symmetry; apply roll_length.
    + assert (FM : forall l : list (list Q), Forall2 (rotated k) l (map (roll k) l)).
      { induction l as [|a l IH]; cbn [map]; constructor; [apply roll_rotated|exact IH]. }
      destruct t as [l|l|l]; cbn [rows_of].
      * constructor; [apply roll_rotated|constructor].
      * apply FM.
      * rewrite <- concat_map. apply FM.
Qed.

(* ----- grids ----- *)
(* f moves cells as src says and overwrites those in hole *)
Definition moves_cells (f : forall A : Type, (A -> A) -> list (list A) -> list (list A)) (H W : nat) (src : nat -> nat -> nat * nat) (hole : nat -> nat -> bool) : Prop :=
  forall A fill (d : A) g, grid H W g -> grid H W (f A fill g) /\
    forall r c, (r < H)%nat -> (c < W)%nat -> (fst (src r c) < H)%nat /\ (snd (src r c) < W)%nat /\
      nth c (nth r (f A fill g) []) d = (if hole r c then fill else fun a => a) (nth (snd (src r c)) (nth (fst (src r c)) g []) d).

Lemma grid_cell {A} H W (g : list (list A)) r c : grid H W g -> (r < H)%nat -> (c < W)%nat -> In (nth r g []) g /\ length (nth r g []) = W.
Proof. intros [L F] Hr Hc. assert (I : In (nth r g []) g) by (apply nth_In; lia). auto. Qed.

Lemma on_grid_spec f H W src hole v lay t C : moves_cells f H W src hole -> image lay t H W C ->
  image lay (on_grid f v lay t) H W C /\
  forall r c, (r < H)%nat -> (c < W)%nat -> (fst (src r c) < H)%nat /\ (snd (src r c) < W)%nat /\
    pixel lay (on_grid f v lay t) r c = (if hole r c then map (fun _ => v) else fun a => a) (pixel lay t (fst (src r c)) (snd (src r c))).
Proof.
  intros M (H0 & W0 & C0 & I). unfold image. destruct lay, t as [l|l|l]; try contradiction; cbn [on_grid pixel].
  - destruct I as [Gr ->]. destruct (M Q (fun _ => v) 0%Q l Gr) as [G' N]. split; [auto|]. intros r c Hr Hc. destruct (N r c Hr Hc) as (A & B & E).
    split; [exact A|]. split; [exact B|]. rewrite E. destruct (hole r c); reflexivity.
  - destruct I as [Gr Px]. destruct (M (list Q) (map (fun _ => v)) [] l Gr) as [G' N]. split; [|intros r c Hr Hc; exact (N r c Hr Hc)].
    split; [exact H0|]. split; [exact W0|]. split; [exact C0|]. split; [exact G'|].
    intros row px Hrow Hpx. destruct (In_nth _ _ [] Hrow) as (r & Lr & Er). destruct (In_nth _ _ [] Hpx) as (c & Lc & Ec).
    pose proof G' as G''. destruct G'' as [L' F']. rewrite L' in Lr. rewrite (F' row Hrow) in Lc. destruct (N r c Lr Lc) as (A & B & E). rewrite Er, Ec in E. rewrite E.
    assert (X : length (nth (snd (src r c)) (nth (fst (src r c)) l []) []) = C).
    { destruct (grid_cell H W l _ _ Gr A B) as [I1 I2]. apply (Px (nth (fst (src r c)) l [])); [exact I1|]. apply nth_In. lia. }
    destruct (hole r c); [now rewrite map_length|exact X].
  - destruct I as [Lc F]. split.
    + split; [exact H0|]. split; [exact W0|]. split; [exact C0|]. split; [now rewrite map_length|]. intros ch Hch. apply in_map_iff in Hch. destruct Hch as (ch0 & <- & Hc0).
      apply (M Q (fun _ => v) 0%Q ch0 (F _ Hc0)).
    + intros r c Hr Hc. assert (X : (fst (src r c) < H)%nat /\ (snd (src r c) < W)%nat).
      { destruct l as [|ch l]; [cbn in Lc; lia|]. destruct (M Q (fun _ => v) 0%Q ch (F _ (or_introl eq_refl))) as [_ N]. destruct (N r c Hr Hc) as (A & B & _). auto. }
      destruct X as [X1 X2]. split; [exact X1|]. split; [exact X2|]. rewrite map_map.
      assert (E : map (fun ch => nth c (nth r (f Q (fun _ => v) ch) []) 0%Q) l =
                  map (fun ch => (if hole r c then fun _ => v else fun a => a) (nth (snd (src r c)) (nth (fst (src r c)) ch []) 0%Q)) l).
      { apply map_ext_in. intros ch Hch. destruct (M Q (fun _ => v) 0%Q ch (F _ Hch)) as [_ N]. destruct (N r c Hr Hc) as (_ & _ & E). rewrite E. destruct (hole r c); reflexivity. }
      rewrite E. destruct (hole r c); [now rewrite map_map|reflexivity].
Qed.

Lemma grid_size_image lay t H W C : image lay t H W C -> grid_size lay t = (Z.of_nat H, Z.of_nat W).
Proof.
  intros (H0 & W0 & C0 & I). unfold grid_size, lenZ.
  assert (X : forall {A} (g : list (list A)), grid H W g -> length (hd [] g) = W).
  { intros A g [L F]. destruct g as [|r g]; [cbn in L; lia|]. cbn. apply F. now left. }
  destruct lay, t as [l|l|l]; try contradiction.
  - destruct I as [Gr _]. rewrite (X _ _ Gr). destruct Gr as [-> _]. reflexivity.
  - destruct I as [Gr _]. rewrite (X _ _ Gr). destruct Gr as [-> _]. reflexivity.
  - destruct I as [Lc F]. destruct l as [|ch l]; [cbn in Lc; lia|]. cbn [hd]. pose proof (F ch (or_introl eq_refl)) as Gr. rewrite (X _ _ Gr). destruct Gr as [-> _]. reflexivity.
Qed.

(* flip *)
Lemma flip_moves H W : moves_cells flip_grid H W (fun r c => (r, W - 1 - c)%nat) (fun _ _ => false).
Proof.
  intros A fill d g [L F]. unfold flip_grid. split.
  - split; [now rewrite map_length|]. intros r Hr. apply in_map_iff in Hr. destruct Hr as (r0 & <- & H0). rewrite rev_length. auto.
  - intros r c Hr Hc. cbn [fst snd]. split; [exact Hr|]. split; [lia|]. rewrite (nth_indep _ [] (rev [])) by (rewrite map_length; lia). rewrite (map_nth (@rev A)).
    assert (Lr : length (nth r g []) = W) by (apply F, nth_In; lia). rewrite rev_nth by lia. f_equal. lia.
Qed.

Lemma flip_twice lay t : on_grid flip_grid 0%Q lay (on_grid flip_grid 0%Q lay t) = t.
Proof.
  assert (X : forall {A} f (l : list (list A)), flip_grid A f (flip_grid A f l) = l).
  { intros A f l. unfold flip_grid. rewrite map_map. rewrite <- (map_id l) at 2. apply map_ext. intros r. apply rev_involutive. }
  destruct lay, t as [l|l|l]; cbn [on_grid]; try reflexivity; f_equal; try apply X.
  rewrite map_map. rewrite <- (map_id l) at 2. apply map_ext. intros ch. apply X.
Qed.

(* holes *)
Lemma slice_apply_length {B} (f : B -> B) lo len l : length (slice_apply f lo len l) = length l.
Proof. unfold slice_apply. rewrite !app_length, map_length, firstn_length, firstn_length, skipn_length, skipn_length. lia. Qed.
Lemma slice_apply_nth {B} (f : B -> B) lo len l i d : (i < length l)%nat ->
  nth i (slice_apply f lo len l) d = (if (lo <=? i)%nat && (i <? lo + len)%nat then f else fun a => a) (nth i l d).
Proof.
  intros Hi. assert (E : nth_error (slice_apply f lo len l) i = option_map (if (lo <=? i)%nat && (i <? lo + len)%nat then f else fun a => a) (nth_error l i)).
  { unfold slice_apply. destruct (Nat.leb_spec lo i) as [L|L]; cbn [andb].
    - rewrite nth_error_app2 by (rewrite firstn_length; lia). rewrite firstn_length. replace (i - Nat.min lo (length l))%nat with (i - lo)%nat by lia.
      destruct (Nat.ltb_spec i (lo + len)) as [M|M].
      + rewrite nth_error_app1 by (rewrite map_length, firstn_length, skipn_length; lia). rewrite nth_error_map, nth_error_firstn, nth_error_skipn by lia.
        replace (lo + (i - lo))%nat with i by lia. reflexivity.
      + rewrite nth_error_app2 by (rewrite map_length, firstn_length, skipn_length; lia). rewrite map_length, firstn_length, skipn_length, nth_error_skipn.
        replace (lo + len + (i - lo - Nat.min len (length l - lo)))%nat with i by lia. now destruct (nth_error l i).
    - rewrite nth_error_app1 by (rewrite firstn_length; lia). rewrite nth_error_firstn by lia. now destruct (nth_error l i). }
  rewrite (nth_error_nth' l d Hi) in E. cbn in E. now apply nth_error_nth with (d := d) in E.
Qed.

Lemma hole_moves H W top lft len : moves_cells (hole_grid top lft len) H W (fun r c => (r, c))
  (fun r c => ((top <=? r) && (r <? top + len) && (lft <=? c) && (c <? lft + len))%nat).
Proof.
  intros A fill d g [L F]. unfold hole_grid. split.
  - split; [now rewrite slice_apply_length|]. intros r Hr. destruct (In_nth _ _ [] Hr) as (i & Li & <-). rewrite slice_apply_length in Li. rewrite slice_apply_nth by exact Li.
    assert (X : length (nth i g []) = W) by (apply F, nth_In, Li). destruct (_ && _); [now rewrite slice_apply_length|exact X].
  - intros r c Hr Hc. cbn [fst snd]. split; [exact Hr|]. split; [exact Hc|]. rewrite slice_apply_nth by lia.
    assert (X : length (nth r g []) = W) by (apply F, nth_In; lia). destruct ((top <=? r)%nat && (r <? top + len)%nat); cbn [andb]; [|reflexivity].
    rewrite slice_apply_nth by lia. reflexivity.
Qed.

Lemma cut_holes_spec G v lay H W C len : draws_ok G -> 0 <= len -> forall n t s, image lay t H W C ->
  exists holes, length holes = n /\ image lay (fst (cut_holes G n (Z.of_nat H) (Z.of_nat W) len v lay t s)) H W C /\
    (forall h, In h holes -> 0 <= fst h /\ 0 <= snd h /\ (len <= Z.of_nat H -> fst h + len <= Z.of_nat H) /\ (len <= Z.of_nat W -> snd h + len <= Z.of_nat W) /\
        (Z.of_nat H <= len -> fst h = 0) /\ (Z.of_nat W <= len -> snd h = 0)) /\
    forall r c, (r < H)%nat -> (c < W)%nat ->
      pixel lay (fst (cut_holes G n (Z.of_nat H) (Z.of_nat W) len v lay t s)) r c =
      if existsb (fun h => in_square len h r c) holes then map (fun _ => v) (pixel lay t r c) else pixel lay t r c.
Proof.
  intros ok Hl. destruct ok as (_ & _ & I & _). induction n as [|n IH]; intros t s Im; cbn [cut_holes].
  - exists []. cbn. split; [reflexivity|]. split; [exact Im|]. split; [intros h []|reflexivity].
  - pose proof (I 0 (Z.max 1 (Z.of_nat H - len + 1)) s ltac:(lia)) as It. destruct (g_int G 0 (Z.max 1 (Z.of_nat H - len + 1)) s) as [top s1].
    pose proof (I 0 (Z.max 1 (Z.of_nat W - len + 1)) s1 ltac:(lia)) as Il. destruct (g_int G 0 (Z.max 1 (Z.of_nat W - len + 1)) s1) as [lft s2]. cbn [fst] in It, Il.
    destruct (on_grid_spec _ _ _ _ _ v lay t C (hole_moves H W (Z.to_nat top) (Z.to_nat lft) (Z.to_nat len)) Im) as [Im' Px].
    destruct (IH _ s2 Im') as (holes & L & Im2 & Hb & Hp). exists ((top, lft) :: holes). split; [cbn; lia|]. split; [exact Im2|]. split.
    + intros h [<-|Hh]; [cbn; lia|now apply Hb].
    + intros r c Hr Hc. rewrite Hp by assumption. destruct (Px r c Hr Hc) as (_ & _ & E). cbn [fst snd] in E. rewrite E. cbn [existsb].
      assert (B : ((Z.to_nat top <=? r) && (r <? Z.to_nat top + Z.to_nat len) && (Z.to_nat lft <=? c) && (c <? Z.to_nat lft + Z.to_nat len))%nat = in_square len (top, lft) r c).
      { unfold in_square. cbn [fst snd]. lia. }
      rewrite B. destruct (in_square len (top, lft) r c); cbn [orb]; [|reflexivity].
      destruct (existsb (fun h => in_square len h r c) holes); [|reflexivity]. rewrite map_map. reflexivity.
Qed.

(* crop *)
Lemma mirror_folds n i : 0 < n -> folds_to n i (mirror n i).
Proof.
  intros Hn. unfold mirror, folds_to. destruct (Z.leb_spec n 1) as [L|L]; [split; [lia|left; lia]|].
  set (p := 2 * (n - 1)). pose proof (Z.mod_pos_bound i p ltac:(unfold p; lia)) as B. pose proof (Z.div_mod i p ltac:(unfold p; lia)) as D.
  destruct (Z.ltb_spec (i mod p) n) as [M|M].
  - split; [lia|]. right. exists (i / p). left. unfold p in *. lia.
  - split; [unfold p in *; lia|]. right. exists (i / p + 1). right. unfold p in *. lia.
Qed.

Lemma gather_spec {A} (l : list A) idx : (forall i, In i idx -> 0 <= i < lenZ l) ->
  length (gather l idx) = length idx /\ forall k d, (k < length idx)%nat -> nth k (gather l idx) d = nth (Z.to_nat (nth k idx 0)) l d.
Proof.
  unfold gather, lenZ. induction idx as [|i idx IH]; intros H; cbn [flat_map length]; [split; [reflexivity|intros; lia]|].
  pose proof (H i (or_introl eq_refl)) as Hi. destruct (nth_error l (Z.to_nat i)) as [a|] eqn:E.
  - destruct IH as [L N]; [intros; apply H; now right|]. cbn [app length]. split; [lia|]. intros [|k] d Hk; cbn [nth]; [symmetry; now apply nth_error_nth|apply N; lia].
  - apply nth_error_None in E. lia.
Qed.

Lemma axis_window_spec n st : (0 < n)%nat -> length (axis_window (Z.of_nat n) st) = n /\
  forall k, (k < n)%nat -> folds_to (Z.of_nat n) (st + Z.of_nat k) (nth k (axis_window (Z.of_nat n) st) 0).
Proof.
  intros Hn. unfold axis_window. assert (L : length (arange (Z.of_nat n)) = n) by (unfold arange; rewrite map_length, seq_length; lia).
  split; [now rewrite map_length|]. intros k Hk. set (f := fun k => mirror (Z.of_nat n) (st + k)). rewrite (nth_indep _ 0 (f 0)) by (rewrite map_length; lia). rewrite (map_nth f).
  assert (E : nth k (arange (Z.of_nat n)) 0 = Z.of_nat k).
  { unfold arange. rewrite Nat2Z.id. change 0 with (Z.of_nat 0). rewrite (map_nth Z.of_nat), seq_nth by lia. reflexivity. }
  rewrite E. apply mirror_folds. lia.
Qed.

Lemma crop_moves H W dy dx : (0 < H)%nat -> (0 < W)%nat -> moves_cells (crop_grid (Z.of_nat H) (Z.of_nat W) dy dx) H W
  (fun r c => (Z.to_nat (nth r (axis_window (Z.of_nat H) dy) 0), Z.to_nat (nth c (axis_window (Z.of_nat W) dx) 0))) (fun _ _ => false).
Proof.
  intros H0 W0 A fill d g [L F]. unfold crop_grid.
  destruct (axis_window_spec H dy H0) as [LH FH], (axis_window_spec W dx W0) as [LW FW].
  assert (RH : forall i, In i (axis_window (Z.of_nat H) dy) -> 0 <= i < Z.of_nat H).
  { intros i Hi. destruct (In_nth _ _ 0 Hi) as (k & Lk & <-). apply FH. lia. }
  assert (RW : forall i, In i (axis_window (Z.of_nat W) dx) -> 0 <= i < Z.of_nat W).
  { intros i Hi. destruct (In_nth _ _ 0 Hi) as (k & Lk & <-). apply FW. lia. }
  destruct (gather_spec g (axis_window (Z.of_nat H) dy)) as [Lg Ng]; [unfold lenZ; rewrite L; exact RH|].
  assert (In_g : forall row, In row (gather g (axis_window (Z.of_nat H) dy)) -> length row = W).
  { intros row Hr. destruct (In_nth _ _ [] Hr) as (k & Lk & <-). rewrite Ng by lia. apply F, nth_In. pose proof (FH k ltac:(lia)) as [X _]. lia. }
  split.
  - split; [rewrite map_length; lia|]. intros row Hr. apply in_map_iff in Hr. destruct Hr as (r0 & <- & Hr0).
    destruct (gather_spec r0 (axis_window (Z.of_nat W) dx)) as [Lr _]; [unfold lenZ; rewrite (In_g _ Hr0); exact RW|]. lia.
  - intros r c Hr Hc. cbn [fst snd]. pose proof (FH r Hr) as [X1 _]. pose proof (FW c Hc) as [X2 _]. split; [lia|]. split; [lia|].
    set (h := fun row => gather row (axis_window (Z.of_nat W) dx)).
    rewrite (nth_indep _ [] (h [])) by (rewrite map_length; lia). rewrite (map_nth h). unfold h. rewrite Ng by lia.
    assert (LR : length (nth (Z.to_nat (nth r (axis_window (Z.of_nat H) dy) 0)) g []) = W) by (apply F, nth_In; lia).
    destruct (gather_spec (nth (Z.to_nat (nth r (axis_window (Z.of_nat H) dy) 0)) g []) (axis_window (Z.of_nat W) dx)) as [_ Nr]; [unfold lenZ; rewrite LR; exact RW|].
    apply Nr. lia.
Qed.

(* ----- edges ----- *)
Lemma take_filter {A} (d : A) p (us : list Q) (l : list A) : length us = length l ->
  take l (filter (fun i => Qle_bool p (nth i us 0%Q)) (seq 0 (length l))) = Ok (surviving p us l).
Proof.
  intros H.
  assert (T : forall idx, (forall i, In i idx -> (i < length l)%nat) -> forall d, take l idx = Ok (map (fun i => nth i l d) idx)).
  { induction idx as [|i idx IH]; intros Hi d0; cbn; [reflexivity|]. rewrite (nth_error_nth' l d0) by (apply Hi; now left). rewrite (IH (fun j Hj => Hi j (or_intror Hj)) d0). reflexivity. }
  rewrite (T _ (fun i Hi => proj2 (proj1 (in_seq (length l) 0 i) (proj1 (proj1 (filter_In _ i _) Hi)))) d). f_equal.
  unfold surviving. clear T. revert us H. induction l as [|a l IH]; intros [|u us] H; cbn [length] in H; try lia; [reflexivity|].
  cbn [length seq filter combine fst]. change (nth 0 (u :: us) 0%Q) with u. rewrite <- seq_shift.
  assert (E : forall k, filter (fun i => Qle_bool p (nth i (u :: us) 0%Q)) (map Datatypes.S k) = map Datatypes.S (filter (fun i => Qle_bool p (nth i us 0%Q)) k)).
  { induction k as [|b k IHk]; cbn [map filter]; [reflexivity|]. rewrite IHk. change (nth (Datatypes.S b) (u :: us) 0%Q) with (nth b us 0%Q). destruct (Qle_bool p (nth b us 0%Q)); reflexivity. }
  rewrite E. specialize (IH us ltac:(lia)).
  destruct (Qlt_le_dec u p) as [L|L]; destruct (Qle_bool p u) eqn:B.
  - apply Qle_bool_iff in B. lra.
  - rewrite map_map. cbn [nth]. exact IH.
  - cbn [map snd nth]. rewrite map_map. cbn [nth]. now rewrite IH.
  - apply Qle_bool_false in B. lra.
Qed.

Lemma surviving_map {A B} (f : A -> B) p us l : surviving p us (map f l) = map f (surviving p us l).
Proof.
  unfold surviving. revert us. induction l as [|a l IH]; intros [|u us]; cbn [map combine filter]; auto.
  destruct (Qlt_le_dec (fst (u, f a)) p) as [L|L], (Qlt_le_dec (fst (u, a)) p) as [L'|L']; cbn [fst map snd] in *; try lra; [apply IH|]. f_equal. apply IH.
Qed.
Lemma surviving_sub {A} p us (l : list A) : subsequence (surviving p us l) l.
Proof.
  unfold surviving. revert us. induction l as [|a l IH]; intros [|u us]; cbn [combine filter map]; [constructor|constructor|apply sub_empty|].
  destruct (Qlt_le_dec (fst (u, a)) p); [apply sub_skip, IH|cbn [map snd]; apply sub_take, IH].
Qed.

Lemma edge_index_written e es : edges_written e es -> edge_index_2xE e = Ok (map fst es, map snd es).
Proof.
  intros [->|(N1 & N2 & ->)]; [reflexivity|]. unfold edge_index_2xE.
  destruct es as [|[a b] [|[a2 b2] es]]; [cbn in N1; congruence|reflexivity|]. destruct es as [|ab es]; [cbn in N2; congruence|].
  cbn [map fst snd hd]. cbn [nth]. rewrite !map_map. reflexivity.
Qed.
