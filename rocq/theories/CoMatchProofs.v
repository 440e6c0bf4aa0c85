From Coq Require Import QArith Qminmax Permutation Lqa Lia ZifyBool ZifyNat.
From Verif Require Import Prelude QFacts ListFacts SampleServiceProofs DeepBatchModel DeepBatchSpec DeepBatchProofs DeepLossModel DeepLossSpec DeepLossProofs DeepThreshModel DeepThreshSpec DeepThreshProofs DeepEmaModel DeepEmaSpec DeepEmaProofs CoMatchModel CoMatchSpec.
Local Open Scope Z_scope.
Local Open Scope Q_scope.
Local Open Scope list_scope.

(* ------------------------------------------------------------------ the ring *)
Lemma write_length {A} p (rows l : list A) : (p + length rows <= length l)%nat -> length (write_at p rows l) = length l.
Proof. intros H. unfold write_at. rewrite !app_length, firstn_length, skipn_length. lia. Qed.
Lemma write_nth {A} p (rows l : list A) j : (p + length rows <= length l)%nat ->
  nth_error (write_at p rows l) j = if Nat.ltb j p then nth_error l j else if Nat.ltb j (p + length rows) then nth_error rows (j - p) else nth_error l j.
Proof.
  intros H. unfold write_at. assert (LF : length (firstn p l) = p) by (rewrite firstn_length; lia).
  destruct (Nat.ltb_spec j p) as [J|J].
  - rewrite nth_error_app1 by lia. rewrite <- (firstn_skipn p l) at 2. rewrite nth_error_app1 by lia. reflexivity.
  - rewrite nth_error_app2 by lia. rewrite LF. destruct (Nat.ltb_spec j (p + length rows)) as [K|K].
    + rewrite nth_error_app1 by lia. reflexivity.
    + rewrite nth_error_app2 by lia. rewrite <- (firstn_skipn (p + length rows) l) at 2.
      rewrite (nth_error_app2 (firstn (p + length rows) l)) by (rewrite firstn_length; lia). f_equal. rewrite firstn_length. lia.
Qed.


Section Ring.
Context {A : Type}.
Variable size : nat.
Hypothesis SZ : (0 < size)%nat.

Definition ring_inv (q : ring A) (h : list A) : Prop :=
  length (slots q) = size /\ ptr q = (length h mod size)%nat /\ count q = Nat.min size (length h) /\
  forall j, (length h - size <= j < length h)%nat -> nth_error (slots q) (j mod size) = nth_error h j.

Lemma mod_at (a b r : nat) : (r < size)%nat -> a = (size * b + r)%nat -> (a mod size)%nat = r.
Proof using SZ. intros R E. symmetry. now apply (Nat.mod_unique a size b r). Qed.

Lemma ring_init_inv z : ring_inv (ring_init z size) [].
Proof using SZ.
  unfold ring_inv, ring_init. cbn [slots ptr count length]. rewrite repeat_length. split; [reflexivity|]. split; [now rewrite Nat.mod_0_l by lia|].
  split; [lia|]. intros j J. cbn in J. lia.
Qed.

Lemma ring_push_inv q h rows : ring_inv q h -> ring_inv (ring_push q rows) (h ++ firstn size rows).
Proof using SZ.
  intros (I1 & I2 & I3 & I4). destruct rows as [|x0 rows0]; [rewrite firstn_nil, app_nil_r; now repeat split|].
  set (rows := x0 :: rows0). assert (NE : (0 < length rows)%nat) by (cbn; lia). unfold ring_push. fold rows. rewrite I1.
  replace (match rows with [] => q | _ :: _ => _ end) with
    (let rows' := if Nat.ltb size (length rows) then firstn size rows else rows in
     {| slots := if Nat.leb (ptr q + length rows') size then write_at (ptr q) rows' (slots q)
                 else write_at 0 (skipn (size - ptr q) rows') (write_at (ptr q) (firstn (size - ptr q) rows') (slots q));
        ptr := ((ptr q + length rows') mod size)%nat; count := Nat.min size (count q + length rows') |}) by reflexivity.
  cbn zeta. assert (ER : (if Nat.ltb size (length rows) then firstn size rows else rows) = firstn size rows).
  { destruct (Nat.ltb_spec size (length rows)); [reflexivity|]. rewrite firstn_all2; [reflexivity|lia]. }
  rewrite ER. clear ER. set (r := firstn size rows). assert (Lr : (0 < length r <= size)%nat) by (unfold r; rewrite firstn_length; lia).
  clearbody r. clear rows x0 rows0 NE. set (n := length r) in *. set (p := ptr q) in *.
  assert (P : (p < size)%nat) by (rewrite I2; apply Nat.mod_upper_bound; lia).
  assert (D : length h = (size * (length h / size) + p)%nat) by (rewrite I2; apply Nat.div_mod; lia).
  set (m := (length h / size)%nat) in D.
  set (st := if Nat.leb (p + n) size then _ else _).
  assert (Wl : length st = size /\ (forall i, (i < n)%nat -> nth_error st (if Nat.ltb (p + i) size then p + i else p + i - size)%nat = nth_error r i) /\
               forall j, (j < size)%nat -> (p + n <= j \/ j < p /\ p + n <= j + size)%nat -> nth_error st j = nth_error (slots q) j).
  { unfold st. destruct (Nat.leb_spec (p + n) size) as [H|H].
    - split; [rewrite write_length; fold n; lia|]. split.
      + intros i Hi. destruct (Nat.ltb_spec (p + i) size); [|lia]. rewrite write_nth by (fold n; lia). fold n.
        destruct (Nat.ltb_spec (p + i) p); [lia|]. destruct (Nat.ltb_spec (p + i) (p + n)); [|lia]. f_equal. lia.
      + intros j J C. rewrite write_nth by (fold n; lia). fold n. destruct (Nat.ltb_spec j p); [reflexivity|]. destruct (Nat.ltb_spec j (p + n)); [lia|reflexivity].
    - assert (L1 : length (firstn (size - p) r) = (size - p)%nat) by (rewrite firstn_length; fold n; lia).
      assert (L2 : length (skipn (size - p) r) = (n - (size - p))%nat) by (rewrite skipn_length; fold n; lia).
      assert (L3 : length (write_at p (firstn (size - p) r) (slots q)) = size) by (rewrite write_length; lia).
      split; [rewrite write_length; lia|]. split.
      + intros i Hi. rewrite write_nth by lia. rewrite L2. cbn [Nat.add]. destruct (Nat.ltb_spec (p + i) size) as [C|C].
        * destruct (Nat.ltb_spec (p + i) 0); [lia|]. destruct (Nat.ltb_spec (p + i) (n - (size - p))); [lia|].
          rewrite write_nth by lia. rewrite L1. destruct (Nat.ltb_spec (p + i) p); [lia|]. destruct (Nat.ltb_spec (p + i) (p + (size - p))); [|lia].
          replace (p + i - p)%nat with i by lia. rewrite <- (firstn_skipn (size - p) r) at 2. rewrite nth_error_app1 by lia. reflexivity.
        * destruct (Nat.ltb_spec (p + i - size) 0); [lia|]. destruct (Nat.ltb_spec (p + i - size) (n - (size - p))); [|lia].
          rewrite <- (firstn_skipn (size - p) r) at 2. rewrite nth_error_app2 by lia. rewrite L1. f_equal. lia.
      + intros j J C. rewrite write_nth by lia. rewrite L2. cbn [Nat.add]. destruct (Nat.ltb_spec j 0); [lia|]. destruct (Nat.ltb_spec j (n - (size - p))); [lia|].
        rewrite write_nth by lia. rewrite L1. destruct (Nat.ltb_spec j p); [reflexivity|]. lia. }
  clearbody st. destruct Wl as (W1 & W2 & W3).
  split; [exact W1|]. cbn [slots ptr count]. rewrite app_length. fold n. split; [|split].
  - rewrite I2. rewrite Nat.add_mod_idemp_l by lia. reflexivity.
  - rewrite I3. lia.
  - intros j J. destruct (Nat.lt_ge_cases j (length h)) as [H|H].
    + rewrite nth_error_app1 by exact H. rewrite <- (I4 j ltac:(lia)). set (a := (length h - j)%nat).
      destruct (Nat.le_gt_cases a p) as [C|C].
      * rewrite (mod_at j m (p - a)) by lia. apply W3; lia.
      * assert (m <> 0)%nat by (intros M0; rewrite M0 in D; lia). destruct m as [|m']; [contradiction|].
        rewrite (mod_at j m' (size + p - a)) by lia. apply W3; lia.
    + rewrite nth_error_app2 by exact H. rewrite <- (W2 (j - length h)%nat) by lia. f_equal.
      destruct (Nat.ltb_spec (p + (j - length h)) size); [apply (mod_at j m)|apply (mod_at j (S m))]; lia.
Qed.

Lemma ring_stored_perm q h : ring_inv q h -> Permutation (ring_stored q) (recent size h).
Proof using SZ.
  intros (I1 & I2 & I3 & I4). unfold ring_stored, recent. rewrite I3.
  destruct h as [|d0 h0]; [cbn; rewrite Nat.min_0_r; cbn; constructor|]. set (h := d0 :: h0) in *. clearbody h.
  set (lo := (length h - size)%nat) in *. set (c := Nat.min size (length h)).
  assert (E1 : firstn c (slots q) = map (fun i => nth i (slots q) d0) (seq 0 c)).
  { apply (nth_ext _ _ d0 d0); [rewrite firstn_length, map_length, seq_length; unfold c; lia|].
    intros i Hi. rewrite firstn_length in Hi. rewrite nth_firstn_lt by lia. rewrite (nth_map _ _ i 0%nat) by (rewrite seq_length; lia).
    rewrite seq_nth by lia. reflexivity. }
  assert (E2 : skipn lo h = map (fun i => nth i (slots q) d0) (map (fun j => (j mod size)%nat) (seq lo c))).
  { rewrite map_map. apply (nth_ext _ _ d0 d0); [rewrite skipn_length, map_length, seq_length; unfold c, lo; lia|].
    intros i Hi. rewrite skipn_length in Hi. rewrite nth_skipn. rewrite (nth_map _ _ i 0%nat) by (rewrite seq_length; unfold c, lo in *; lia).
    rewrite seq_nth by (unfold c, lo in *; lia).
    specialize (I4 (lo + i)%nat ltac:(unfold lo in *; lia)).
    destruct (nth_error h (lo + i)) as [v|] eqn:Ev; [|apply nth_error_None in Ev; unfold lo in *; lia].
    rewrite (nth_error_nth _ _ d0 I4). exact (nth_error_nth _ _ d0 Ev). }
  rewrite E1, E2. apply Permutation_map. symmetry. apply NoDup_Permutation_bis.
  - apply (NoDup_nth _ 0%nat). rewrite map_length, seq_length. intros i j Hi Hj E.
    rewrite !(nth_map _ _ _ 0%nat) in E by (rewrite seq_length; lia). rewrite !seq_nth in E by lia.
    pose proof (Nat.div_mod (lo + i) size ltac:(lia)) as D1. pose proof (Nat.div_mod (lo + j) size ltac:(lia)) as D2. rewrite E in D1.
    assert (c <= size)%nat by (unfold c; lia). set (u := ((lo + i) / size)%nat) in *. set (v := ((lo + j) / size)%nat) in *.
    assert (u = v) by nia. nia.
  - rewrite map_length, !seq_length. lia.
  - intros x I. apply in_map_iff in I. destruct I as (j & <- & J). apply in_seq in J. apply in_seq. split; [lia|]. cbn.
    unfold c, lo in *. destruct (Nat.le_gt_cases (length h) size) as [H|H].
    + destruct (Nat.eq_dec (length h) size) as [->|N]; [rewrite Nat.min_id; apply Nat.mod_upper_bound; lia|].
      rewrite Nat.mod_small by lia. lia.
    + rewrite Nat.min_l by lia. apply Nat.mod_upper_bound. lia.
Qed.

End Ring.
Lemma ring_one {A} (q : ring A) x : (ptr q < length (slots q))%nat ->
  ring_push q [x] = {| slots := write_at (ptr q) [x] (slots q); ptr := ((ptr q + 1) mod length (slots q))%nat; count := Nat.min (length (slots q)) (count q + 1) |}.
Proof.
  intros H. unfold ring_push. cbn [length]. destruct (Nat.ltb_spec (length (slots q)) 1); [lia|]. cbn [length].
  destruct (Nat.leb_spec (ptr q + 1) (length (slots q))); [reflexivity|lia].
Qed.

Lemma recent_length {A} n (l : list A) : length (recent n l) = Nat.min n (length l).
Proof. unfold recent. rewrite skipn_length. lia. Qed.
Lemma recent_map {A B} (f : A -> B) n l : map f (recent n l) = recent n (map f l).
Proof. unfold recent. now rewrite map_length, skipn_map. Qed.
Lemma recent_In {A} n (l : list A) x : In x (recent n l) -> In x l.
Proof. unfold recent. apply In_skipn. Qed.

(* ------------------------------------------------------------------ rows *)
Lemma dot_inner a b : dot a b = inner a b.
Proof. reflexivity. Qed.

Lemma row_normalize_length l : length (row_normalize l) = length l.
Proof. unfold row_normalize. now rewrite map_length. Qed.
Lemma row_normalize_nth l j : (j < length l)%nat -> nth j (row_normalize l) 0 = nth j l 0 / Qmax (Qsum l) tiny.
Proof. intros H. unfold row_normalize. now rewrite (nth_map _ _ j 0) by exact H. Qed.

Lemma zip_sum {A} (f : A -> Q) (g : nat -> A -> Q) d l : 
  Qsum (zipw (fun a m => a * g O m) (map (fun m => f m / d) l) l) == Qsum (map (fun m => f m * g O m) l) / d.
Proof.
  induction l as [|m l IH]; [cbn; unfold Qdiv; ring|]. unfold zipw in *. cbn [map combine fst snd]. rewrite !Qsum_cons, IH. unfold Qdiv. ring.
Qed.

(* ------------------------------------------------------------------ the graph *)
Section Graph.
Variable threshold : Q.
Variable k n : nat.
Variable probs : list (list Q).
Hypothesis TP : table n k probs.
Hypothesis NN : forall i c, (i < n)%nat -> (c < k)%nat -> 0 <= cell probs i c.
Hypothesis T1 : threshold <= 1.

Lemma link_nonneg i j : (i < n)%nat -> (j < n)%nat -> 0 <= link threshold probs i j.
Proof using All.
  intros I J. unfold link. destruct (Nat.eqb_spec i j); [lra|]. cbn zeta. destruct (_ || _); [|lra].
  unfold inner. apply Qsum_nonneg. intros x H. apply in_map_iff in H. destruct H as ([a b] & <- & H). cbn [fst snd].
  pose proof (in_combine_l _ _ _ _ H) as HA. pose proof (in_combine_r _ _ _ _ H) as HB.
  destruct (In_nth _ _ 0 HA) as (ca & CA & <-). destruct (In_nth _ _ 0 HB) as (cb & CB & <-).
  rewrite (table_nth n k probs) in CA by (exact TP || assumption). rewrite (table_nth n k probs) in CB by (exact TP || assumption).
  apply Qmult_le_0_compat; apply NN; assumption.
Qed.
Lemma link_total i : (i < n)%nat -> 1 <= Qsum (map (link threshold probs i) (seq 0 n)).
Proof using All.
  intros I. assert (E : link threshold probs i i == 1) by (unfold link; now rewrite Nat.eqb_refl).
  apply Qle_trans with (link threshold probs i i); [lra|]. apply sum_ge_entry.
  - intros y H. apply in_map_iff in H. destruct H as (j & <- & H). apply in_seq in H. apply link_nonneg; lia.
  - apply in_map_iff. exists i. split; [reflexivity|apply in_seq; lia].
Qed.
Lemma graph_shape : table n n (pseudo_graph threshold probs).
Proof using All.
  unfold pseudo_graph. rewrite (proj1 TP). split; [now rewrite map_length, seq_length|]. intros r I. apply in_map_iff in I. destruct I as (i & <- & _).
  now rewrite row_normalize_length, map_length, seq_length.
Qed.
Lemma graph_entry i j : (i < n)%nat -> (j < n)%nat -> cell (pseudo_graph threshold probs) i j == link_share threshold probs i j.
Proof using All.
  intros I J. unfold pseudo_graph. rewrite (proj1 TP). unfold cell. rewrite (nth_map _ _ i 0%nat) by (rewrite seq_length; exact I). rewrite seq_nth by exact I.
  cbn [Nat.add]. rewrite row_normalize_nth by (rewrite map_length, seq_length; exact J).
  assert (EL : forall j, (j < n)%nat -> (let q := if Nat.eqb i j then 1 else dot (nth i probs []) (nth j probs []) in
             if Qle_bool threshold 0 then q else if Qle_bool threshold q then q else q * 0) == link threshold probs i j).
  { intros j' J'. unfold link. rewrite dot_inner. cbn zeta. destruct (Nat.eqb_spec i j') as [E|E].
    - destruct (Qle_bool threshold 0); [reflexivity|]. apply Qle_bool_iff in T1. rewrite T1. reflexivity.
    - destruct (Qle_bool threshold 0); [reflexivity|]. cbn [orb]. destruct (Qle_bool threshold _); [reflexivity|ring]. }
  rewrite (nth_map _ _ j 0%nat) by (rewrite seq_length; exact J). rewrite seq_nth by exact J. cbn [Nat.add].
  unfold link_share. rewrite (EL j J). rewrite (Qsum_ext _ (link threshold probs i)) by (intros x X; apply in_seq in X; apply EL; lia).
  rewrite (proj1 TP). pose proof (link_total i I) as LT.
  assert (M : Qmax (Qsum (map (link threshold probs i) (seq 0 n))) tiny == Qsum (map (link threshold probs i) (seq 0 n))).
  { apply Q.max_l. unfold tiny. lra. }
  rewrite M. reflexivity.
Qed.
End Graph.

(* ------------------------------------------------------------------ one step *)
Lemma Forall2_rows {A B} (P : A -> B -> Prop) a b da db : length a = length b -> (forall i, (i < length a)%nat -> P (nth i a da) (nth i b db)) -> Forall2 P a b.
Proof.
  revert b. induction a as [|x a IH]; intros [|z b] L H; try discriminate L; constructor; [exact (H 0%nat ltac:(cbn; lia))|].
  apply IH; [cbn in L; lia|]. intros i Hi. exact (H (S i) ltac:(cbn; lia)).
Qed.
Lemma f2_len {A B} (P : A -> B -> Prop) a b : Forall2 P a b -> length a = length b.
Proof. induction 1; cbn; congruence. Qed.
Lemma table_width n k l : (0 < n)%nat -> table n k l -> width l = k.
Proof. intros N [L H]. destruct l as [|r l]; [cbn in L; lia|]. apply H. now left. Qed.

Section StepProofs.
Variable softmax sharp log_softmax : list Q -> list Q.
Variable ce : list Q -> Z -> Q.
Variable argmax : list Q -> Z.
Variable exp log : Q -> Q.
Variable l2 : list Q -> list Q.
Variable cfg : config.
Variable k d : nat.
Hypothesis SM : softmax_ok softmax.
Hypothesis SH : softmax_ok sharp.
Hypothesis LS : forall z, length (log_softmax z) = length z.
Hypothesis EX : forall x, 0 < exp x.
Hypothesis K : (0 < k)%nat.
Hypothesis SA : 0 <= smoothing cfg <= 1.
Hypothesis CC : contrast_cutoff cfg <= 1.

Definition nonneg_table (l : list (list Q)) : Prop := forall r x, In r l -> In x r -> 0 <= x.
Definition bank_inv (h : list (list Q * list Q)) (b : option (ring (list Q * list Q))) : Prop :=
  (forall m, In m h -> length (snd m) = k /\ forall x, In x (snd m) -> 0 <= x) /\
  if Nat.eqb (queue_size cfg) 0 then b = None
  else match b with None => h = [] | Some q => ring_inv (queue_size cfg) q h end.
Definition da_inv (h : list (list Q)) (b : option (ring (list Q))) : Prop :=
  if negb (dist_align cfg) || Nat.eqb (da_len cfg) 0 then True
  else match b with None => h = [] | Some q => ring_inv (da_len cfg) q h end.

Lemma da_step batches da pu pl n a da' : (0 < n)%nat -> table n k pu -> da_inv (map (col_mean k) batches) da ->
  cm_align cfg da pu pl = (a, da') ->
  da_inv (map (col_mean k) (batches ++ [pu])) da' /\ length a = n /\ aligned_step cfg k (batches ++ [pu]) pl pu a.
Proof using All.
  intros N TP I E. unfold cm_align in E. unfold da_inv in *. unfold aligned_step.
  destruct (negb (dist_align cfg) || Nat.eqb (da_len cfg) 0) eqn:OFF.
  { injection E as <- <-. split; [exact I|]. split; [exact (proj1 TP)|]. replace (dist_align cfg && negb (Nat.eqb (da_len cfg) 0)) with false; [reflexivity|].
    destruct (dist_align cfg), (Nat.eqb (da_len cfg) 0); cbn in *; congruence. }
  apply orb_false_iff in OFF. destruct OFF as [O1 O2]. apply negb_false_iff in O1. rewrite O1, O2. cbn [negb andb].
  assert (L : (0 < da_len cfg)%nat) by lia. rewrite (table_width n k pu N TP) in E.
  set (q := match da with Some q => q | None => ring_init (repeat 0 k) (da_len cfg) end) in E.
  assert (Iq : ring_inv (da_len cfg) q (map (col_mean k) batches)).
  { unfold q. destruct da; [exact I|]. rewrite I. now apply ring_init_inv. }
  assert (Pq : (ptr q < length (slots q))%nat) by (destruct Iq as (-> & -> & _); apply Nat.mod_upper_bound; lia).
  pose proof (ring_push_inv (da_len cfg) L q _ [col_mean k pu] Iq) as I'. rewrite (ring_one q (col_mean k pu) Pq) in I'.
  rewrite (proj1 Iq) in I'. replace (firstn (da_len cfg) [col_mean k pu]) with [col_mean k pu] in I' by (destruct (da_len cfg); [lia|now rewrite firstn_cons, firstn_nil]).
  set (q' := {| slots := _; ptr := _; count := _ |}) in *. injection E as <- <-. rewrite map_app. cbn [map].
  split; [exact I'|]. split; [rewrite map_length; exact (proj1 TP)|].
  apply (Forall2_rows _ _ _ [] []); [now rewrite map_length|]. intros i Hi. rewrite (proj1 TP) in Hi.
  rewrite (nth_map _ pu i []) by (rewrite (proj1 TP); exact Hi). set (p := nth i pu []). assert (LP : length p = k) by (apply (table_nth n k pu); assumption).
  set (target := if dist_uniform cfg then _ else _). set (ratio := zipw _ target _).
  assert (LT : length target = k) by (unfold target; destruct (dist_uniform cfg); [apply repeat_length|apply col_mean_length]).
  assert (LR : length ratio = k) by (unfold ratio; rewrite zipw_length; [exact LT|rewrite LT, col_mean_length; reflexivity]).
  assert (TE : forall c, (c < k)%nat -> nth c target 0 = if dist_uniform cfg then 1 / inject_Z (Z.of_nat k) else class_mean c pl).
  { intros c C. unfold target. destruct (dist_uniform cfg); [now apply uniform_nth|now apply col_mean_nth]. }
  assert (PE : forall c, (c < k)%nat -> class_mean c (ring_stored q') == Qmean (map (class_mean c) (recent (da_len cfg) (batches ++ [pu])))).
  { intros c C. unfold class_mean at 1. rewrite (Qmean_perm _ _ (Permutation_map _ (ring_stored_perm (da_len cfg) L q' _ I'))).
    replace (map (col_mean k) batches ++ [col_mean k pu]) with (map (col_mean k) (batches ++ [pu])) by now rewrite map_app.
    rewrite <- recent_map, map_map. apply Qmean_ext. intros b _. rewrite col_mean_nth by exact C. reflexivity. }
  assert (RE : forall c, (c < k)%nat -> nth c ratio 0 = nth c target 0 / Qmax (class_mean c (ring_stored q')) (1 # 1000000)).
  { intros c C. unfold ratio. rewrite (zipw_seq _ target _ 0 0) by (rewrite LT, col_mean_length; reflexivity). rewrite LT.
    rewrite (nth_map _ _ c 0%nat) by (rewrite seq_length; exact C). rewrite seq_nth by exact C. cbn [Nat.add]. rewrite col_mean_nth by exact C. reflexivity. }
  assert (ZE : zipw Qmult p ratio = map (fun c => nth c p 0 * nth c ratio 0) (seq 0 k)).
  { rewrite (zipw_seq Qmult p ratio 0 0) by congruence. now rewrite LP. }
  split; [rewrite row_normalize_length, ZE, map_length, seq_length; reflexivity|]. cbn zeta. intros c C.
  rewrite ZE. rewrite row_normalize_nth by (rewrite map_length, seq_length; exact C).
  rewrite (nth_map _ _ c 0%nat) by (rewrite seq_length; exact C). rewrite seq_nth by exact C. cbn [Nat.add].
  assert (SE : forall c, (c < k)%nat -> nth c p 0 * nth c ratio 0 ==
     nth c p 0 * ((if dist_uniform cfg then 1 / inject_Z (Z.of_nat k) else class_mean c pl) / Qmax (Qmean (map (class_mean c) (recent (da_len cfg) (batches ++ [pu])))) (1 # 1000000))).
  { intros c' C'. rewrite (RE c' C'), (TE c' C'). rewrite (PE c' C'). reflexivity. }
  match goal with |- context [Qmax (Qsum (map ?g (seq 0 k))) (1 # 1000000000000)] =>
    assert (SQ : Qsum (map g (seq 0 k)) == Qsum (map (fun c => nth c p 0 * nth c ratio 0) (seq 0 k))) by
      (apply Qsum_ext; intros c' X; apply in_seq in X; symmetry; apply SE; lia) end.
  rewrite SQ. rewrite <- (SE c C). clear SQ.
  assert (M : 0 < Qmax (Qsum (map (fun c0 => nth c0 p 0 * nth c0 ratio 0) (seq 0 k))) tiny) by (apply Qmax_pos; reflexivity).
  unfold tiny in *. set (X := Qmax _ _) in *. field. apply Q_neq. exact M.
Qed.

Lemma aligned_nonneg n batches l u a : (0 < n)%nat -> (forall c, (c < k)%nat -> 0 <= class_mean c l) -> nonneg_table u -> table n k u -> length a = n -> aligned_step cfg k batches l u a ->
  table n k a /\ nonneg_table a.
Proof using All.
  intros N CL NU TU LA H. unfold aligned_step in H. destruct (dist_align cfg && negb (Nat.eqb (da_len cfg) 0)); [|subst a; now split].
  assert (HR : forall r, In r a -> length r = k /\ forall x, In x r -> 0 <= x).
  { intros r I. destruct (In_nth _ _ [] I) as (i & Hi & <-). rewrite LA in Hi.
    assert (X : aligned k (fun c => if dist_uniform cfg then 1 / inject_Z (Z.of_nat k) else class_mean c l) (fun c => Qmean (map (class_mean c) (recent (da_len cfg) batches))) (nth i u []) (nth i a [])).
    { apply (Forall2_nth_inv _ _ _ [] [] i H). rewrite (proj1 TU). exact Hi. }
    destruct X as [L E]. split; [exact L|]. intros x J. destruct (In_nth _ _ 0 J) as (c & C & <-). rewrite L in C. cbn zeta in E. specialize (E c C). cbn beta in E.
    set (Z := Qmax _ (1 # 1000000000000)) in E. assert (PZ : 0 < Z) by (apply Qmax_pos; reflexivity).
    assert (0 <= nth c (nth i u []) 0).
    { apply (NU (nth i u [])); [apply nth_In; rewrite (proj1 TU); exact Hi|]. apply nth_In. rewrite (table_nth n k u); assumption. }
    assert (T : 0 <= (if dist_uniform cfg then 1 / inject_Z (Z.of_nat k) else class_mean c l)).
    { destruct (dist_uniform cfg); [|now apply CL]. apply Qle_shift_div_l; [|ring_simplify; lra]. apply inject_pos. lia. }
    set (t := if dist_uniform cfg then _ else _) in *. set (m := Qmax _ (1 # 1000000)) in E. assert (PM : 0 < m) by (apply Qmax_pos; reflexivity).
    assert (0 <= t / m) by (apply Qle_shift_div_l; [exact PM|ring_simplify; exact T]).
    assert (0 <= nth c (nth i u []) 0 * (t / m)) by (apply Qmult_le_0_compat; assumption). nra. }
  split; [split; [exact LA|]|]; [intros r I; now apply HR|]. intros r x I. now apply HR.
Qed.

Lemma smooth_step h bank probs feats n : (0 < n)%nat -> table n k probs -> length feats = n -> bank_inv h bank ->
  let bank' := match bank with None => if Nat.eqb (queue_size cfg) 0 then None else Some (ring_init ([] : list Q, [] : list Q) (queue_size cfg)) | Some q => Some q end in
  let s := memory_smooth exp cfg bank probs feats in
  smoothed_step exp cfg k (recent (queue_size cfg) h) feats probs s /\ length s = n.
Proof using All.
  intros N TP LF (HR & BI) bank' s. unfold s, smoothed_step. rewrite (proj1 TP).
  assert (SAME : forall (b : bool), b = true -> (length probs = n /\ forall r, (r < n)%nat -> if b then nth r probs [] = nth r probs [] else recalled (smoothing cfg) k (likeness exp cfg (nth r feats [])) (recent (queue_size cfg) h) (nth r probs []) (nth r probs [])) /\ length probs = n).
  { intros b ->. split; [split; [exact (proj1 TP)|reflexivity]|exact (proj1 TP)]. }
  destruct bank as [q|]; cbn [memory_smooth].
  2:{ apply SAME. replace (recent (queue_size cfg) h) with (@nil (list Q * list Q)); [reflexivity|].
      destruct (Nat.eqb_spec (queue_size cfg) 0) as [Z|Z]; [rewrite Z; unfold recent; now rewrite Nat.sub_0_r, skipn_all|]. now rewrite BI. }
  destruct (Nat.eqb_spec (queue_size cfg) 0) as [Z|Z]; [discriminate BI|]. assert (Q0 : (0 < queue_size cfg)%nat) by lia.
  pose proof (ring_stored_perm (queue_size cfg) Q0 q h BI) as PM. destruct BI as (B1 & B2 & B3 & B4).
  assert (LC : length (recent (queue_size cfg) h) = count q) by (rewrite recent_length; lia). rewrite LC.
  destruct (Nat.eqb_spec (count q) 0); [now apply SAME|].
  destruct (Nat.ltb_spec 0 (min_fill cfg)) as [M0|M0]; cbn [andb].
  1: destruct (Nat.ltb_spec (count q) (min_fill cfg)); [now apply SAME|].
  2: destruct (Nat.ltb_spec (count q) (min_fill cfg)); [lia|].
  all: destruct (Qle_bool 1 (smoothing cfg)); [now apply SAME|]; cbn [orb].
  all: rewrite zipw_length by (rewrite (proj1 TP), LF; reflexivity); (split; [|exact (proj1 TP)]); split; [exact (proj1 TP)|]; intros r R;
    (rewrite (zipw_seq _ probs feats [] []) by (rewrite (proj1 TP), LF; reflexivity)); rewrite (proj1 TP);
    (rewrite (nth_map _ _ r 0%nat) by (rewrite seq_length; exact R)); (rewrite seq_nth by exact R); cbn [Nat.add];
    rewrite (table_nth n k probs r TP R); (split; [now rewrite map_length, seq_length|]); intros c C;
    (rewrite (nth_map _ _ c 0%nat) by (rewrite seq_length; exact C)); (rewrite seq_nth by exact C); cbn [Nat.add];
    unfold row_normalize; rewrite map_map;
    pose proof (zip_sum (fun m => near exp cfg (nth r feats []) (fst m)) (fun _ m => nth c (snd m) 0) (Qmax (Qsum (map (fun m => near exp cfg (nth r feats []) (fst m)) (ring_stored q))) tiny) (ring_stored q)) as ZS;
    cbn beta in ZS; rewrite ZS;
    (rewrite (Qsum_perm _ _ (Permutation_map (fun m => near exp cfg (nth r feats []) (fst m) * nth c (snd m) 0) PM)));
    (rewrite (Qsum_perm _ _ (Permutation_map (fun m => near exp cfg (nth r feats []) (fst m)) PM))); reflexivity.
Qed.

Lemma recalled_nonneg weight (mem : list (list Q * list Q)) p s : (forall f, 0 < weight f) -> (forall m, In m mem -> length (snd m) = k /\ forall x, In x (snd m) -> 0 <= x) ->
  length p = k -> (forall x, In x p -> 0 <= x) -> recalled (smoothing cfg) k weight mem p s -> forall x, In x s -> 0 <= x.
Proof using All.
  intros W HM LP NP (L & E) x I. destruct (In_nth _ _ 0 I) as (c & C & <-). rewrite L in C. rewrite (E c C).
  assert (A1 : 0 <= nth c p 0) by (apply NP, nth_In; lia).
  set (num := Qsum _). set (den := Qmax _ _). assert (PD : 0 < den) by (apply Qmax_pos; reflexivity).
  assert (PN : 0 <= num).
  { apply Qsum_nonneg. intros y J. apply in_map_iff in J. destruct J as (m & <- & J). destruct (HM m J) as [LM NM].
    apply Qmult_le_0_compat; [apply Qlt_le_weak, W|]. apply NM, nth_In. lia. }
  assert (0 <= num / den) by (apply Qle_shift_div_l; [exact PD|ring_simplify; exact PN]).
  assert (0 <= smoothing cfg * nth c p 0) by (apply Qmult_le_0_compat; lra).
  assert (0 <= (1 - smoothing cfg) * (num / den)) by (apply Qmult_le_0_compat; lra). lra.
Qed.

Lemma smoothed_nonneg n mem f a s : table n k a -> nonneg_table a -> (forall m, In m mem -> length (snd m) = k /\ forall x, In x (snd m) -> 0 <= x) ->
  smoothed_step exp cfg k mem f a s -> table n k s /\ nonneg_table s.
Proof using All.
  intros TA NA HM (LS0 & H). rewrite (proj1 TA) in *.
  assert (HR : forall r, In r s -> length r = k /\ forall x, In x r -> 0 <= x).
  { intros r I. destruct (In_nth _ _ [] I) as (i & Hi & <-). rewrite LS0 in Hi. specialize (H i Hi).
    assert (IA : In (nth i a []) a) by (apply nth_In; rewrite (proj1 TA); exact Hi).
    assert (LA : length (nth i a []) = k) by (apply TA; exact IA).
    destruct (_ || _ || _); [rewrite H; split; [exact LA|intros x J; now apply (NA (nth i a []))]|].
    split; [apply H|]. apply (recalled_nonneg (likeness exp cfg (nth i f [])) mem (nth i a [])); try assumption; [intros g; apply EX|intros x J; now apply (NA (nth i a []))]. }
  split; [split; [exact LS0|]|]; [intros r I; now apply HR|]. intros r x I. now apply HR.
Qed.

Lemma cm_check_spec o y n_l n_u : (0 < n_l)%nat -> (0 < n_u)%nat -> outputs_ok n_l n_u k d o -> (forall c, In c y -> (0 <= c < Z.of_nat k)%Z) -> cm_check o y = Ok tt.
Proof using All.
  intros NL NU (A & B & C & D & E & F & G & H) Y. unfold cm_check, same_shape.
  rewrite (table_width n_l k _ NL A), (table_width n_l d _ NL B), (table_width n_u k _ NU C), (table_width n_u d _ NU D), (table_width n_u k _ NU E), (table_width n_u d _ NU F), (table_width n_u k _ NU G), (table_width n_u d _ NU H).
  rewrite (proj1 C), (proj1 E), (proj1 G), !Nat.eqb_refl. cbn [negb andb orb].
  replace (existsb _ y) with false; [reflexivity|]. symmetry. apply Bool.not_true_iff_false. intros X. apply existsb_exists in X.
  destruct X as (c & I & X). apply Y in I. lia.
Qed.

Lemma contrastive_spec n f0 f1 s : (0 < n)%nat -> length f0 = n -> length f1 = n -> table n k s -> nonneg_table s ->
  average (map (fun i => - Qsum (map (fun j =>
                link_share (contrast_cutoff cfg) s i j * log (share n (fun j => likeness exp cfg (nth i f0 []) (nth j f1 [])) j + (1 # 10000000)))
              (seq 0 n))) (seq 0 n)) (contrastive exp log cfg f0 f1 (pseudo_graph (contrast_cutoff cfg) s)).
Proof using All.
  intros N L0 L1 TS NS. unfold contrastive.
  assert (NC : forall i c, (i < n)%nat -> (c < k)%nat -> 0 <= cell s i c).
  { intros i c I C. apply (NS (nth i s [])); apply nth_In; [rewrite (proj1 TS); exact I|]. rewrite (table_nth n k s); assumption. }
  pose proof (graph_shape (contrast_cutoff cfg) k n s TS NC CC) as GS. pose proof (graph_entry (contrast_cutoff cfg) k n s TS NC CC) as GE.
  rewrite (zipw_seq _ f0 (pseudo_graph (contrast_cutoff cfg) s) [] []) by (rewrite L0, (proj1 GS); reflexivity). rewrite L0.
  eapply average_ext; [|apply average_mean; destruct n; [lia|discriminate]].
  apply Forall2_map_same. intros i I. apply in_seq in I. apply Qopp_comp.
  rewrite (zipw_seq _ _ (nth i (pseudo_graph (contrast_cutoff cfg) s) []) 0 0) by (rewrite row_normalize_length, map_length, L1; symmetry; apply (table_nth n n _ _ GS); lia).
  rewrite row_normalize_length, map_length, L1. apply Qsum_ext. intros j J. apply in_seq in J.
  rewrite row_normalize_nth by (rewrite map_length, L1; lia). rewrite (nth_map _ f1 j []) by lia.
  assert (EM : map (near exp cfg (nth i f0 [])) f1 = map (fun j => likeness exp cfg (nth i f0 []) (nth j f1 [])) (seq 0 n)).
  { rewrite <- (nth_seq [] f1) at 1. rewrite map_map, L1. reflexivity. }
  rewrite EM. specialize (GE i j ltac:(lia) ltac:(lia)). unfold cell in GE. rewrite GE. unfold share, tiny. 
  change (near exp cfg (nth i f0 []) (nth j f1 [])) with (likeness exp cfg (nth i f0 []) (nth j f1 [])). ring.
Qed.

Lemma cm_step_spec st o y n_l n_u hb batches : (0 < n_l)%nat -> (0 < n_u)%nat -> outputs_ok n_l n_u k d o -> length y = n_l -> (forall c, In c y -> (0 <= c < Z.of_nat k)%Z) ->
  bank_inv hb (fst st) -> da_inv (map (col_mean k) batches) (snd st) ->
  exists loss st' a s, cm_step softmax sharp log_softmax ce argmax exp log l2 cfg st o y = Ok (loss, st') /\
    bank_inv (hb ++ firstn (queue_size cfg) (step_rows l2 k o y a)) (fst st') /\
    da_inv (map (col_mean k) (batches ++ [map sharp (logits_w o)])) (snd st') /\
    aligned_step cfg k (batches ++ [map sharp (logits_w o)]) (map softmax (logits_l o)) (map sharp (logits_w o)) a /\
    smoothed_step exp cfg k (recent (queue_size cfg) hb) (map l2 (feats_w o)) a s /\
    step_loss log_softmax ce argmax exp log l2 cfg k o y s loss.
Proof using All.
  intros NL NU OK LY Y BI DI. pose proof (cm_check_spec o y n_l n_u NL NU OK Y) as CK.
  destruct OK as (A & B & C & D & E & F & G & H). destruct st as [bank0 da0]. cbn [fst snd] in BI, DI. unfold cm_step. rewrite CK. cbn [bind].
  set (bank := match bank0 with None => _ | Some q => Some q end).
  destruct (cm_align cfg da0 (map sharp (logits_w o)) (map softmax (logits_l o))) as [a da'] eqn:EA.
  assert (TP : table n_u k (map sharp (logits_w o))) by (apply (softmax_table sharp k SH); exact C).
  assert (NP : nonneg_table (map sharp (logits_w o))).
  { intros r x I J. apply in_map_iff in I. destruct I as (z & <- & _). now apply (SH z). }
  destruct (da_step batches da0 _ _ n_u a da' NU TP DI EA) as (DI' & LA & AS).
  assert (CL : forall c, (c < k)%nat -> 0 <= class_mean c (map softmax (logits_l o))).
  { intros c Hc. apply Qmean_bounds with (b := 1); [intros X; apply map_eq_nil, map_eq_nil in X; rewrite X in A; destruct A as [A _]; cbn in A; lia|].
    intros x I. apply in_map_iff in I. destruct I as (r & <- & I). apply in_map_iff in I. destruct I as (z & <- & I). destruct (SM z) as (L1 & N1 & S1).
    assert (Lz : length z = k) by (apply A; exact I). split; [apply N1, nth_In; lia|]. rewrite <- S1 by (intros ->; cbn in Lz; lia). apply sum_ge_entry; [exact N1|]. apply nth_In. lia. }
  destruct (aligned_nonneg n_u _ _ _ a NU CL NP TP LA AS) as [TA NA].
  assert (BB : bank_inv hb bank).
  { destruct BI as (HR & BI). split; [exact HR|]. unfold bank. destruct (Nat.eqb_spec (queue_size cfg) 0) as [Z|Z]; [now rewrite BI|].
    destruct bank0; [exact BI|]. rewrite BI. apply ring_init_inv. lia. }
  assert (LW : length (map l2 (feats_w o)) = n_u) by (rewrite map_length; apply D).
  destruct (smooth_step hb bank a (map l2 (feats_w o)) n_u NU TA LW BB) as [SS LSM].
  set (s := memory_smooth exp cfg bank a (map l2 (feats_w o))) in *.
  destruct (smoothed_nonneg n_u (recent (queue_size cfg) hb) _ a s TA NA ltac:(intros m I; apply (proj1 BB), (recent_In _ _ _ I)) SS) as [TS NS].
  assert (ROWS : bank_rows l2 o y a = step_rows l2 k o y a).
  { unfold bank_rows, step_rows. rewrite map_app, (table_width n_l k _ NL A). reflexivity. }
  rewrite ROWS. eexists _, _, a, s. split; [reflexivity|]. cbn [fst snd]. split; [|split; [exact DI'|split; [exact AS|split; [exact SS|]]]].
  - split.
    + intros m I. apply in_app_or in I. destruct I as [I|I]; [now apply (proj1 BB)|]. apply In_firstn in I. destruct m as [f p]. unfold step_rows in I.
      apply in_combine_r in I. cbn [snd]. apply in_app_or in I. destruct I as [I|I]; [split; [now apply TA|intros x; now apply NA]|].
      apply in_map_iff in I. destruct I as (c & <- & I). split; [unfold indicator; now rewrite map_length, seq_length|].
      intros x J. apply in_map_iff in J. destruct J as (j & <- & _). destruct (_ =? _)%Z; lra.
    + destruct (Nat.eqb_spec (queue_size cfg) 0) as [Z|Z]; destruct BB as (_ & BB); destruct (Nat.eqb_spec (queue_size cfg) 0) as [Z'|Z']; try contradiction.
      * now rewrite BB.
      * destruct bank as [q|] eqn:EB; [apply ring_push_inv; [lia|exact BB]|]. exfalso. revert EB. unfold bank. destruct bank0; [discriminate|].
        destruct (Nat.eqb_spec (queue_size cfg) 0); [contradiction|discriminate].
  - unfold step_loss. rewrite (proj1 TS). eexists _, _, _. split; [|split; [|split; [|reflexivity]]].
    + rewrite LY. apply ce_mean_spec; [exact NL|apply A|exact LY].
    + assert (ES : s = map (fun i => nth i s []) (seq 0 n_u)) by (rewrite <- (proj1 TS); symmetry; apply nth_seq).
      rewrite ES at 3. rewrite (mask_spec (p_cutoff cfg) (fun i => nth i s []) n_u).
      2:{ intros i I X. pose proof (table_nth n_u k s i TS I) as L. rewrite X in L. cbn in L. lia. }
      destruct (hard_label cfg).
      * rewrite (zipw_seq ce (logits_s0 o) (map argmax s) [] 0%Z) by (rewrite map_length, (proj1 E), (proj1 TS); reflexivity). rewrite (proj1 E).
        rewrite (map_ext_in _ (fun i => ce (nth i (logits_s0 o) []) (argmax (nth i s []))) (seq 0 n_u)); [apply masked_mean_spec|].
        intros i I. apply in_seq in I. rewrite (nth_map argmax s i []) by (rewrite (proj1 TS); lia). reflexivity.
      * rewrite (zipw_seq _ (logits_s0 o) s [] []) by (rewrite (proj1 E), (proj1 TS); reflexivity). rewrite (proj1 E).
        rewrite (map_ext_in _ (fun r => soft_cross_entropy k (nth r s []) (log_softmax (nth r (logits_s0 o) []))) (seq 0 n_u)); [apply masked_mean_spec|].
        intros i I. apply in_seq in I. unfold soft_cross_entropy. rewrite (zipw_seq Qmult _ _ 0 0); rewrite (table_nth n_u k s i TS) by lia; [reflexivity|].
        rewrite LS. symmetry. apply (table_nth n_u k _ i E). lia.
    + apply contrastive_spec; [exact NU|rewrite map_length; apply F|rewrite map_length; apply H|exact TS|exact NS].
Qed.
End StepProofs.

(* ------------------------------------------------------------------ the fit *)
Section FitProofs.
Variable softmax sharp log_softmax : list Q -> list Q.
Variable ce : list Q -> Z -> Q.
Variable argmax : list Q -> Z.
Variable exp log : Q -> Q.
Variable l2 : list Q -> list Q.
Variable cfg : config.
Variable k d n_l n_u : nat.
Variable b : Z.
Variable net : Z -> list nat -> list nat -> outputs.
Variable y : list Z.
Hypothesis SM : softmax_ok softmax.
Hypothesis SH : softmax_ok sharp.
Hypothesis LS : forall z, length (log_softmax z) = length z.
Hypothesis EX : forall x, 0 < exp x.
Hypothesis K : (0 < k)%nat.
Hypothesis SA : 0 <= smoothing cfg <= 1.
Hypothesis CC : contrast_cutoff cfg <= 1.
Hypothesis LY : length y = n_l.
Hypothesis Y : forall c, In c y -> (0 <= c < Z.of_nat k)%Z.
Hypothesis NO : forall t il iu, outputs_ok (length il) (length iu) k d (net t il iu).

Lemma cm_steps_spec all : good_steps n_l n_u b all -> forall steps pre st (a : nat -> list (list Q)), all = pre ++ steps ->
  bank_inv cfg k (concat (map (fun u => firstn (queue_size cfg) (step_rows l2 k (out_at net all u) (labels_at y all u) (a u))) (seq 0 (length pre)))) (fst st) ->
  da_inv cfg (map (col_mean k) (map (weak_at sharp net all) (seq 0 (length pre)))) (snd st) ->
  exists losses (a' s' : nat -> list (list Q)),
    cm_steps softmax sharp log_softmax ce argmax exp log l2 cfg net y (lenZ pre) steps st = Ok losses /\ length losses = length steps /\
    (forall u, (u < length pre)%nat -> a' u = a u) /\
    forall i, (i < length steps)%nat -> let t := (length pre + i)%nat in
      aligned_step cfg k (map (weak_at sharp net all) (seq 0 (S t))) (map softmax (logits_l (out_at net all t))) (weak_at sharp net all t) (a' t) /\
      smoothed_step exp cfg k (memory_at l2 cfg k net y all a' t) (map l2 (feats_w (out_at net all t))) (a' t) (s' t) /\
      step_loss log_softmax ce argmax exp log l2 cfg k (out_at net all t) (labels_at y all t) (s' t) (nth i losses 0).
Proof using All.
  intros GS. induction steps as [|[il iu] steps IH]; intros pre st a E BI DI.
  - exists [], a, (fun _ => []). split; [reflexivity|]. split; [reflexivity|]. split; [reflexivity|]. intros i Hi. cbn in Hi. lia.
  - destruct (GS il iu) as [(NL & _ & NDL & BL) (NU & _ & NDU & BU)]; [rewrite E; apply in_or_app; right; now left|].
    assert (LL : (0 < length il)%nat) by (destruct il; [easy|cbn; lia]). assert (LU : (0 < length iu)%nat) by (destruct iu; [easy|cbn; lia]).
    set (T := length pre). assert (EN : nth T all ([], []) = (il, iu)) by (rewrite E, app_nth2 by (unfold T; lia); unfold T; now rewrite Nat.sub_diag).
    assert (EO : out_at net all T = net (lenZ pre) il iu) by (unfold out_at; rewrite EN; reflexivity).
    assert (EY : labels_at y all T = map (fun i => nth i y 0%Z) il) by (unfold labels_at; now rewrite EN).
    assert (YB : forall c, In c (labels_at y all T) -> (0 <= c < Z.of_nat k)%Z).
    { intros c I. rewrite EY in I. apply in_map_iff in I. destruct I as (i & <- & I). apply Y, nth_In. rewrite LY. now apply BL. }
    pose proof (NO (lenZ pre) il iu) as NOK. rewrite <- EO in NOK.
    destruct (cm_step_spec softmax sharp log_softmax ce argmax exp log l2 cfg k d SM SH LS EX K SA CC st (out_at net all T) (labels_at y all T) (length il) (length iu) _ _ LL LU NOK ltac:(rewrite EY; apply map_length) YB BI DI)
      as (loss & st1 & at1 & st2 & ES & BI1 & DI1 & AS & SS & SL).
    set (a1 := fun u => if Nat.eqb u T then at1 else a u).
    assert (A1 : forall u, (u < T)%nat -> a1 u = a u) by (intros u Hu; unfold a1; destruct (Nat.eqb_spec u T); [lia|reflexivity]).
    assert (AT : a1 T = at1) by (unfold a1; now rewrite Nat.eqb_refl).
    assert (HE : forall f g : nat -> list (list Q), (forall u, (u < T)%nat -> f u = g u) ->
       map (fun u => firstn (queue_size cfg) (step_rows l2 k (out_at net all u) (labels_at y all u) (f u))) (seq 0 T) =
       map (fun u => firstn (queue_size cfg) (step_rows l2 k (out_at net all u) (labels_at y all u) (g u))) (seq 0 T)).
    { intros f g H. apply map_ext_in. intros u I. apply in_seq in I. now rewrite H by lia. }
    destruct (IH (pre ++ [(il, iu)]) st1 a1) as (losses & a' & s' & EC & LC & AG & HC).
    + rewrite E, <- app_assoc. reflexivity.
    + rewrite app_length. cbn [length]. fold T. rewrite Nat.add_1_r, seq_S, map_app, concat_app. cbn [map concat Nat.add]. rewrite app_nil_r, AT, (HE a1 a A1). exact BI1.
    + rewrite app_length. cbn [length]. fold T. rewrite Nat.add_1_r, seq_S, map_app. cbn [map Nat.add]. exact DI1.
    + assert (AT' : a' T = at1) by (rewrite AG by (rewrite app_length; cbn; fold T; lia); exact AT).
      assert (A0 : forall u, (u < T)%nat -> a' u = a u) by (intros u Hu; rewrite AG by (rewrite app_length; cbn; fold T; lia); now apply A1).
      exists (loss :: losses), a', (fun u => if Nat.eqb u T then st2 else s' u).
      split; [|split; [cbn; now rewrite LC|split; [exact A0|]]].
      * cbn [cm_steps]. rewrite <- EO, <- EY, ES. cbn [bind].
        replace (lenZ (pre ++ [(il, iu)])) with (lenZ pre + 1)%Z in EC by (unfold lenZ; rewrite app_length; cbn; lia). now rewrite EC.
      * intros [|i] Hi; cbn zeta; cbn [nth].
        -- rewrite Nat.add_0_r. rewrite Nat.eqb_refl, AT'. split; [|split; [|exact SL]].
           ++ rewrite seq_S, map_app. exact AS.
           ++ unfold memory_at. rewrite (HE a' a A0). exact SS.
        -- specialize (HC i ltac:(cbn in Hi; lia)). cbn zeta in HC. rewrite app_length in HC. cbn [length] in HC. fold T in HC.
           replace (T + 1 + i)%nat with (T + S i)%nat in HC by lia. destruct (Nat.eqb_spec (T + S i) T); [lia|]. exact HC.
Qed.
End FitProofs.

Lemma cm_numbers_spec cfg : match cm_numbers cfg with Ok _ => numbers_ok cfg | Err e => e = InductiveValidationError /\ ~ numbers_ok cfg end.
Proof.
  unfold cm_numbers, in_unit, numbers_ok.
  destruct (Qle_bool 0 (lambda_u cfg)) eqn:E1; cbn [negb]; [apply Qle_bool_iff in E1|apply Qle_bool_false in E1; split; [reflexivity|lra]].
  destruct (Qle_bool 0 (lambda_c cfg)) eqn:E2; cbn [negb]; [apply Qle_bool_iff in E2|apply Qle_bool_false in E2; split; [reflexivity|lra]].
  destruct (Qle_bool 0 (p_cutoff cfg)) eqn:E3; cbn [andb negb]; [apply Qle_bool_iff in E3|apply Qle_bool_false in E3; split; [reflexivity|lra]].
  destruct (Qle_bool (p_cutoff cfg) 1) eqn:E4; cbn [andb negb]; [apply Qle_bool_iff in E4|apply Qle_bool_false in E4; split; [reflexivity|lra]].
  destruct (Qle_bool (temperature cfg) 0) eqn:E5; [apply Qle_bool_iff in E5; split; [reflexivity|lra]|apply Qle_bool_false in E5].
  destruct (Qle_bool 0 (contrast_cutoff cfg)) eqn:E6; cbn [andb negb]; [apply Qle_bool_iff in E6|apply Qle_bool_false in E6; split; [reflexivity|lra]].
  destruct (Qle_bool (contrast_cutoff cfg) 1) eqn:E7; cbn [andb negb]; [apply Qle_bool_iff in E7|apply Qle_bool_false in E7; split; [reflexivity|lra]].
  destruct (Qle_bool 0 (smoothing cfg)) eqn:E8; cbn [andb negb]; [apply Qle_bool_iff in E8|apply Qle_bool_false in E8; split; [reflexivity|lra]].
  destruct (Qle_bool (smoothing cfg) 1) eqn:E9; cbn [andb negb]; [apply Qle_bool_iff in E9|apply Qle_bool_false in E9; split; [reflexivity|lra]].
  destruct (Nat.ltb_spec (queue_size cfg) (min_fill cfg)); [split; [reflexivity|intros (_ & _ & _ & _ & _ & _ & X); lia]|]. repeat split; assumption.
Qed.

Lemma cm_fit_spec {St} (G : Gen St) softmax sharp log_softmax ce argmax exp log l2 cfg net y n_l n_u n_s0 n_s1 b max_epochs sl su k d :
  gen_ok G -> softmax_ok softmax -> softmax_ok sharp -> (forall z, length (log_softmax z) = length z) -> (forall x, 0 < exp x) -> (0 < k)%nat ->
  length y = n_l -> (forall c, In c y -> (0 <= c < Z.of_nat k)%Z) -> (forall t il iu, outputs_ok (length il) (length iu) k d (net t il iu)) ->
  match cm_fit softmax sharp log_softmax ce argmax exp log l2 cfg G net y n_l n_u n_s0 n_s1 b max_epochs sl su with
  | Ok losses => numbers_ok cfg /\ n_s0 = n_u /\ n_s1 = n_u /\ exists epochs (a s : nat -> list (list Q)),
      fit_batches G n_l n_u b max_epochs sl su = Ok epochs /\ length losses = length (concat epochs) /\
      forall t, (t < length (concat epochs))%nat ->
        let o := out_at net (concat epochs) t in
        aligned_step cfg k (map (weak_at sharp net (concat epochs)) (seq 0 (S t))) (map softmax (logits_l o)) (weak_at sharp net (concat epochs) t) (a t) /\
        smoothed_step exp cfg k (memory_at l2 cfg k net y (concat epochs) a t) (map l2 (feats_w o)) (a t) (s t) /\
        step_loss log_softmax ce argmax exp log l2 cfg k o (labels_at y (concat epochs) t) (s t) (nth t losses 0)
  | Err e => e = InductiveValidationError /\ (n_l = 0%nat \/ n_u = 0%nat \/ n_s0 <> n_u \/ n_s1 <> n_u \/ (b <= 0)%Z \/ (max_epochs <= 0)%Z \/ ~ numbers_ok cfg)
  end.
Proof.
  intros GO SM SH LS EX K LY Y NO. unfold cm_fit.
  destruct (Nat.eqb n_l 0 || Nat.eqb n_u 0 || Nat.eqb n_s0 0 || Nat.eqb n_s1 0) eqn:E0; [split; [reflexivity|lia]|].
  destruct (negb (Nat.eqb n_u n_s0) || negb (Nat.eqb n_u n_s1)) eqn:E1; [split; [reflexivity|lia]|].
  pose proof (cm_numbers_spec cfg) as CN. destruct (cm_numbers cfg) as [[]|ex]; cbn [bind]; [|destruct CN as [-> CN]; tauto].
  pose proof (fit_batches_spec G n_l n_u b max_epochs sl su GO) as FB.
  destruct (fit_batches G n_l n_u b max_epochs sl su) as [epochs|ex] eqn:EF; cbn [bind]; [|destruct FB as [-> N]; split; [reflexivity|lia]].
  destruct FB as (NL & NU & B & ME & LE & k_l & k_u & JL & JU & FB). rewrite Forall_forall in FB.
  assert (GS : good_steps n_l n_u b (concat epochs)).
  { intros il iu I. apply in_concat in I. destruct I as (st & I & J). destruct (FB st I) as (_ & F1 & _ & F2 & _). rewrite Forall_forall in F1, F2.
    split; [apply F1; now apply (in_map fst) in J|apply F2; now apply (in_map snd) in J]. }
  destruct CN as (C1 & C2 & C3 & C4 & C5 & C6 & C7).
  destruct (cm_steps_spec softmax sharp log_softmax ce argmax exp log l2 cfg k d n_l n_u b net y SM SH LS EX K C6 (proj2 C5) LY Y NO (concat epochs) GS (concat epochs) [] (None, None) (fun _ => []) eq_refl)
    as (losses & a & s & E & L & _ & H).
  - split; [intros m I; destruct I|]. cbn. now destruct (Nat.eqb (queue_size cfg) 0).
  - unfold da_inv. cbn. now destruct (negb (dist_align cfg) || Nat.eqb (da_len cfg) 0).
  - change (lenZ (@nil (list nat * list nat))) with 0%Z in E. rewrite E. split; [now repeat split|]. split; [lia|]. split; [lia|].
    exists epochs, a, s. split; [reflexivity|]. split; [exact L|]. exact H.
Qed.

(* ------------------------------------------------------------------ smoothed rows stay distributions *)
Lemma indicator_distribution k c : (0 <= c < Z.of_nat k)%Z -> distribution (indicator k c).
Proof. intros H. exact (one_hot_distribution k c H). Qed.

Lemma recalled_distribution alpha k (weight : list Q -> Q) mem p s : 0 <= alpha <= 1 -> length p = k -> distribution p -> mem <> [] ->
  (forall f, (1 # 1000000000000) <= weight f) -> (forall m, In m mem -> length (snd m) = k /\ distribution (snd m)) ->
  recalled alpha k weight mem p s -> distribution s.
Proof.
  intros A LP DP NE W DM (L & E). apply (distribution_nth k p LP) in DP. destruct DP as [NP SP]. apply (distribution_nth k s L).
  set (tot := Qsum (map (fun m => weight (fst m)) mem)) in *.
  assert (W0 : forall f, 0 < weight f) by (intros f; specialize (W f); lra).
  assert (T : (1 # 1000000000000) <= tot).
  { unfold tot. destruct mem as [|m0 mem]; [easy|]. cbn [map]. rewrite Qsum_cons. specialize (W (fst m0)).
    assert (0 <= Qsum (map (fun m => weight (fst m)) mem)); [|lra]. apply Qsum_nonneg. intros x I. apply in_map_iff in I. destruct I as (m & <- & _). apply Qlt_le_weak, W0. }
  assert (M : Qmax tot (1 # 1000000000000) == tot) by (apply Q.max_l; exact T).
  assert (P : 0 < tot) by lra.
  assert (E' : forall c, (c < k)%nat -> nth c s 0 == alpha * nth c p 0 + (1 - alpha) * (Qsum (map (fun m => weight (fst m) * nth c (snd m) 0) mem) / tot)).
  { intros c C. rewrite (E c C), M. reflexivity. }
  split.
  - intros c C. rewrite (E' c C). assert (0 <= Qsum (map (fun m => weight (fst m) * nth c (snd m) 0) mem)).
    { apply Qsum_nonneg. intros x I. apply in_map_iff in I. destruct I as (m & <- & I). destruct (DM m I) as [LM [NM _]]. apply Qmult_le_0_compat; [apply Qlt_le_weak, W0|]. apply NM, nth_In. lia. }
    revert H. generalize (Qsum (map (fun m => weight (fst m) * nth c (snd m) 0) mem)). intros z H. clear E E' M. clearbody tot. assert (0 <= z / tot) by (apply Qle_shift_div_l; [exact P|lra]).
    specialize (NP c C). assert (0 <= alpha * nth c p 0) by (apply Qmult_le_0_compat; lra). assert (0 <= (1 - alpha) * (z / tot)) by (apply Qmult_le_0_compat; [lra|assumption]). lra.
  - rewrite (Qsum_ext _ (fun c => alpha * nth c p 0 + (1 - alpha) * (Qsum (map (fun m => weight (fst m) * nth c (snd m) 0) mem) / tot))) by (intros c I; apply in_seq in I; apply E'; lia).
    rewrite Qsum_plus, Qsum_scale, SP, Qsum_scale.
    rewrite Qsum_div by (apply Q_neq; exact P). rewrite Qsum_swap.
    rewrite (Qsum_ext _ (fun m => weight (fst m))); [fold tot; field; apply Q_neq; exact P|].
    intros m I. rewrite Qsum_scale. destruct (DM m I) as [LM D]. apply (distribution_nth k) in D; [|exact LM]. rewrite (proj2 D). ring.
Qed.

Section Dist.
Variable sharp l2 : list Q -> list Q.
Variable exp : Q -> Q.
Variable cfg : config.
Variable k d : nat.
Variable net : Z -> list nat -> list nat -> outputs.
Variable y : list Z.
Variable steps : list (list nat * list nat).
Variable labelled : nat -> list (list Q).
Variable a s : nat -> list (list Q).
Hypothesis SH : softmax_ok sharp.
Hypothesis K : (0 < k)%nat.
Hypothesis KB : (Z.of_nat k <= 1000000000000)%Z.
Hypothesis SA : 0 <= smoothing cfg <= 1.
Hypothesis W : forall f g, (1 # 1000000000000) <= likeness exp cfg f g.
Hypothesis UN : dist_uniform cfg = true \/ dist_align cfg = false \/ da_len cfg = 0%nat.
Hypothesis Y : forall u c, (u < length steps)%nat -> In c (labels_at y steps u) -> (0 <= c < Z.of_nat k)%Z.
Hypothesis NO : forall u, (u < length steps)%nat -> outputs_ok (length (fst (nth u steps ([], [])))) (length (snd (nth u steps ([], [])))) k d (out_at net steps u).
Hypothesis NE : forall u, (u < length steps)%nat -> snd (nth u steps ([], [])) <> [].
Hypothesis AS : forall t, (t < length steps)%nat -> aligned_step cfg k (map (weak_at sharp net steps) (seq 0 (S t))) (labelled t) (weak_at sharp net steps t) (a t).
Hypothesis SS : forall t, (t < length steps)%nat -> smoothed_step exp cfg k (memory_at l2 cfg k net y steps a t) (map l2 (feats_w (out_at net steps t))) (a t) (s t).

Lemma weak_rows t : (t < length steps)%nat -> prob_batch k (weak_at sharp net steps t).
Proof using All.
  intros T. destruct (NO t T) as (_ & _ & [LW HW] & _). split.
  - intros X. apply map_eq_nil in X. rewrite X in LW. cbn in LW. apply (NE t T). now apply length_zero_iff_nil.
  - intros p I. apply in_map_iff in I. destruct I as (z & <- & I). destruct (SH z) as (L1 & N1 & S1). rewrite (HW z I) in L1. split; [exact L1|]. split; [exact N1|].
    apply S1. intros ->. cbn in L1. specialize (HW [] I). cbn in HW. lia.
Qed.
Lemma aligned_rows t : (t < length steps)%nat -> forall p, In p (a t) -> length p = k /\ distribution p.
Proof using All.
  intros T p I. pose proof (AS t T) as A1. unfold aligned_step in A1. destruct (dist_align cfg && negb (Nat.eqb (da_len cfg) 0)) eqn:EA.
  - apply andb_true_iff in EA. destruct EA as [E1 E2]. destruct UN as [U|[U|U]]; [|congruence|rewrite U in E2; discriminate E2].
    rewrite U in A1. destruct (In_nth _ _ [] I) as (i & Hi & <-). assert (LL : length (weak_at sharp net steps t) = length (a t)) by exact (f2_len _ _ _ A1).
    pose proof (Forall2_nth_inv _ _ _ [] [] i A1 ltac:(lia)) as X. split; [apply X|].
    destruct (proj2 (weak_rows t T) (nth i (weak_at sharp net steps t) []) ltac:(apply nth_In; lia)) as [LP DP].
    refine (proj2 (aligned_distribution k _ _ _ _ LP DP X _ _) _).
    + intros c C. apply Qle_shift_div_l; [apply inject_pos; lia|ring_simplify; lra].
    + intros c C. assert (0 <= Qmean (map (class_mean c) (recent (da_len cfg) (map (weak_at sharp net steps) (seq 0 (S t))))) <= 1) as B; [|apply B].
      apply Qmean_range.
      * intros Z. apply map_eq_nil in Z. apply (f_equal (@length _)) in Z. rewrite recent_length, map_length, seq_length in Z. cbn in Z. apply negb_true_iff, Nat.eqb_neq in E2. lia.
      * intros x J. apply in_map_iff in J. destruct J as (bt & <- & J). apply recent_In in J. apply in_map_iff in J. destruct J as (u & <- & J). apply in_seq in J.
        destruct (class_mean_dist k K (weak_at sharp net steps u) (weak_rows u ltac:(lia))) as [CN CS]. split; [now apply CN|]. now apply (dist_entry_le (fun c => class_mean c (weak_at sharp net steps u)) k).
    + intros c C. apply Qle_shift_div_l; [apply inject_pos; lia|]. assert (inject_Z (Z.of_nat k) <= inject_Z 1000000000000) by (rewrite <- Zle_Qle; exact KB). 
      change (inject_Z 1000000000000) with (1000000000000 # 1) in H. lra.
  - rewrite A1 in I. now apply (proj2 (weak_rows t T)).
Qed.
Lemma memory_rows t : (t <= length steps)%nat -> forall m, In m (memory_at l2 cfg k net y steps a t) -> length (snd m) = k /\ distribution (snd m).
Proof using All.
  intros T m I. apply recent_In in I. apply in_concat in I. destruct I as (l & I & J). apply in_map_iff in I. destruct I as (u & <- & I). apply in_seq in I.
  apply In_firstn in J. destruct m as [f p]. unfold step_rows in J. apply in_combine_r in J. cbn [snd]. apply in_app_or in J. destruct J as [J|J].
  - apply (aligned_rows u); [lia|exact J].
  - apply in_map_iff in J. destruct J as (c & <- & J). split; [unfold indicator; now rewrite map_length, seq_length|]. apply indicator_distribution. apply (Y u); [lia|exact J].
Qed.
Lemma smoothed_rows t : (t < length steps)%nat -> forall p, In p (s t) -> length p = k /\ distribution p.
Proof using All.
  intros T p I. destruct (SS t T) as [L H]. destruct (In_nth _ _ [] I) as (i & Hi & <-). specialize (H i ltac:(lia)).
  destruct (aligned_rows t T (nth i (a t) []) ltac:(apply nth_In; lia)) as [LA DA].
  destruct (Nat.eqb_spec (length (memory_at l2 cfg k net y steps a t)) 0) as [Z|Z]; cbn [orb] in H; [now rewrite H|].
  destruct (_ || _); [now rewrite H|]. split; [apply H|].
  apply (recalled_distribution (smoothing cfg) k (likeness exp cfg (nth i (map l2 (feats_w (out_at net steps t))) [])) (memory_at l2 cfg k net y steps a t) (nth i (a t) [])); try assumption.
  - intros X. rewrite X in Z. cbn in Z. lia.
  - intros f. apply W.
  - intros m. apply memory_rows. lia.
Qed.
End Dist.
