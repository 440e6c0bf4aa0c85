(* C118 to C120: principal components, whitening, random projection. *)
From Coq Require Import QArith Lqa ZifyBool ZifyNat.
From Verif Require Import Prelude QFacts ListFacts TransModel TransProofs TokModel TokSpec TokProofs StepSpec PcaModel PcaSpec PcaProofs.
Local Open Scope Q_scope.
Local Open Scope list_scope.

(* the array a step reads: features.X when present, otherwise raw.X *)
Definition reads {A} (features raw : option A) (X : A) : Prop :=
  features = Some X \/ (features = None /\ raw = Some X).
Lemma reads_get {A} (features raw : option A) X : reads features raw X <-> get_X features raw = Ok X.
Proof.
  unfold reads, get_X. destruct features as [f|]; [|destruct raw as [r|]]; split; intros H.
  - destruct H as [[= ->]|[H _]]; [reflexivity|discriminate].
  - injection H as ->. now left.
  - destruct H as [H|[_ [= ->]]]; [discriminate|reflexivity].
  - injection H as ->. now right.
  - destruct H as [H|[_ H]]; discriminate.
  - discriminate.
Qed.
Definition picked {A} (rows : list A) (idx : list Z) (chosen : list A) : Prop :=
  Forall2 (fun i x => designates rows i x) idx chosen.

(* C118: fitting succeeds exactly when there is an array and a non-empty selection of existing rows. *)
Theorem C118_fit_returns : forall svd nc center (features raw : option (array cell)) idx,
  (exists st, pca_fit svd nc center features raw idx = Ok st) <->
  exists X, reads features raw X /\ idx <> [] /\ forall i, In i idx -> (- lenZ (body X) <= i < lenZ (body X))%Z.
Proof.
  intros svd nc center features raw idx. split.
  - intros (st & H). destruct (pca_fit_inv svd nc center features raw idx st H) as (X & chosen & G & F & N).
    exists X. split; [now apply reads_get|]. split; [intros ->; inversion F; subst; contradiction|].
    apply take_rows_total. exists chosen. now apply take_rows_ok.
  - intros (X & R & N & I). apply reads_get in R. apply take_rows_total in I. destruct I as (chosen & T).
    unfold pca_fit. rewrite R. cbn [bind]. rewrite T. cbn [bind]. destruct chosen as [|c0 rest]; [|eauto].
    apply take_rows_ok in T. inversion T. subst. contradiction.
Qed.
(* C118: the fit depends on the selected rows and the width only. *)
Theorem C118_fit_rows_only : forall svd nc center features raw features' raw' (X X' : array cell) idx idx' chosen,
  reads features raw X -> reads features' raw' X' -> width X = width X' ->
  picked (body X) idx chosen -> picked (body X') idx' chosen ->
  pca_fit svd nc center features raw idx = pca_fit svd nc center features' raw' idx'.
Proof.
  intros svd nc center features raw features' raw' X X' idx idx' chosen R R' W P P'.
  apply reads_get in R, R'. apply take_rows_ok in P, P'. unfold pca_fit. rewrite R, R'. cbn [bind]. rewrite P, P', W. reflexivity.
Qed.
(* C118: the transformation acts row by row: the coordinates of a row are the inner products of the row
   (missing cells replaced by the average known value of the fit rows, seen from the middle of the fit
   rows) with the components; there are max(1, min(n_components, fit rows, width)) of them. *)
Theorem C118_row_by_row : forall svd nc center features raw (X T : array cell) idx chosen st empty,
  let d := width X in let v := svd d (seen_rows center d chosen) in
  reads features raw X -> rectangular d (body X) -> picked (body X) idx chosen ->
  pca_fit svd nc center features raw idx = Ok st ->
  length v = Nat.min (length chosen) d -> (forall r, In r v -> length r = d) ->
  width T = d -> rectangular d (body T) -> length empty = length (body T) ->
  exists out, pca_transform center (Some st) (Some T) empty = Ok out /\ length out = length (body T) /\
    forall i r, nth_error (body T) i = Some r -> exists z, nth_error out i = Some z /\
      ((0 < d)%nat -> length z = Z.to_nat (Z.max 1 (Z.min nc (Z.min (lenZ chosen) (Z.of_nat d))))) /\
      forall a, (a < length z)%nat -> nth a z 0 = inner d (seen center chosen r) (coords (nth a v [])).
Proof.
  intros svd nc center features raw X T idx chosen st empty d v R RX P F Lv Rv WT RT LE.
  pose proof (proj1 (reads_get features raw X) R) as G.
  destruct (pca_fit_inv svd nc center features raw idx st F) as (X' & chosen' & G' & P' & N).
  assert (X' = X) by congruence. subst X'. assert (chosen' = chosen) by (eapply chosen_unique; eauto). subst chosen'.
  rewrite (pca_fit_is svd nc center features raw X idx chosen G RX P N) in F. injection F as <-.
  exists (map (pca_row center (state_of svd nc center d chosen)) (body T)).
  split; [|split].
  - apply pca_transform_is; [|exact LE]. cbn [state_of p_mean]. unfold mean_of. destruct center; now rewrite map_length, seq_length.
  - now rewrite map_length.
  - intros i r Hr. exists (pca_row center (state_of svd nc center d chosen) r).
    assert (Lr : length r = d) by (apply RT; eapply nth_error_In, Hr).
    split; [now apply map_nth_error|].
    split.
    + intros Pd. rewrite row_len by exact Lr. cbn [state_of p_components]. fold v. rewrite firstn_length.
      unfold chosen_k, lenZ. assert (length chosen <> O) by (destruct chosen; [contradiction|discriminate]). lia.
    + intros a Ha. rewrite row_len in Ha by exact Lr. apply row_nth; assumption.
Qed.
(* C118: with orthonormal components no two rows get farther apart. *)
Theorem C118_distances : forall svd nc center features raw (X T : array cell) idx chosen st empty out i i' r r' z z',
  let d := width X in let v := svd d (seen_rows center d chosen) in
  reads features raw X -> rectangular d (body X) -> picked (body X) idx chosen ->
  pca_fit svd nc center features raw idx = Ok st ->
  (forall r, In r v -> length r = d) ->
  (forall a b, (a < length v)%nat -> (b < length v)%nat -> inner d (coords (nth a v [])) (coords (nth b v [])) == delta a b) ->
  width T = d -> rectangular d (body T) -> length empty = length (body T) ->
  pca_transform center (Some st) (Some T) empty = Ok out ->
  nth_error (body T) i = Some r -> nth_error (body T) i' = Some r' -> nth_error out i = Some z -> nth_error out i' = Some z' ->
  distance2 (length z) (coords z) (coords z') <= distance2 d (value chosen r) (value chosen r').
Proof.
  intros svd nc center features raw X T idx chosen st empty out i i' r r' z z' d v R RX P F Rv OR WT RT LE TR H1 H2 H3 H4.
  pose proof (proj1 (reads_get features raw X) R) as G.
  destruct (pca_fit_inv svd nc center features raw idx st F) as (X' & chosen' & G' & P' & N).
  assert (X' = X) by congruence. subst X'. assert (chosen' = chosen) by (eapply chosen_unique; eauto). subst chosen'.
  rewrite (pca_fit_is svd nc center features raw X idx chosen G RX P N) in F. injection F as <-.
  rewrite pca_transform_is in TR; [|cbn [state_of p_mean]; unfold mean_of; destruct center; now rewrite map_length, seq_length|exact LE].
  injection TR as <-. rewrite (map_nth_error _ _ _ H1) in H3. rewrite (map_nth_error _ _ _ H2) in H4. injection H3 as <-. injection H4 as <-.
  assert (Lr : length r = d) by (apply RT; eapply nth_error_In, H1). assert (Lr' : length r' = d) by (apply RT; eapply nth_error_In, H2).
  rewrite row_len by exact Lr. apply contraction; assumption.
Qed.
(* C118: on the fit rows, with a singular value decomposition: with enough components the distances
   are kept; the coordinates are uncorrelated, with decreasing spread, and add up to 0 when centred;
   and among the directions orthogonal to the earlier components none has a larger spread than the next
   component. *)
Theorem C118_fit_geometry : forall svd nc center features raw (X : array cell) idx chosen st empty,
  let d := width X in let v := svd d (seen_rows center d chosen) in
  reads features raw X -> rectangular d (body X) -> picked (body X) idx chosen ->
  pca_fit svd nc center features raw idx = Ok st ->
  svd_of d (seen_rows center d chosen) v -> length empty = length chosen ->
  exists out k, pca_transform center (Some st) (Some {| width := d; body := chosen |}) empty = Ok out /\
    length out = length chosen /\ (forall z, In z out -> length z = k) /\
    ((Z.of_nat (Nat.min (length chosen) d) <= nc)%Z -> forall i i' r r' z z',
       nth_error chosen i = Some r -> nth_error chosen i' = Some r' -> nth_error out i = Some z -> nth_error out i' = Some z' ->
       distance2 k (coords z) (coords z') == distance2 d (value chosen r) (value chosen r')) /\
    (center = true -> forall a, (a < k)%nat -> Qsum (map (fun z => nth a z 0) out) == 0) /\
    (forall a b, (a < k)%nat -> (b < k)%nat -> a <> b -> Qsum (map (fun z => nth a z 0 * nth b z 0) out) == 0) /\
    (forall a b, (a <= b)%nat -> (b < k)%nat -> Qsum (map (fun z => nth b z 0 * nth b z 0) out) <= Qsum (map (fun z => nth a z 0 * nth a z 0) out)) /\
    (forall w m, (m < k)%nat -> inner d w w == 1 -> (forall b, (b < m)%nat -> inner d (coords (nth b v [])) w == 0) ->
       Qsum (map (fun r => inner d (seen center chosen r) w * inner d (seen center chosen r) w) chosen)
       <= Qsum (map (fun z => nth m z 0 * nth m z 0) out)).
Proof.
  intros svd nc center features raw X idx chosen st empty d v R RX P F SV LE.
  pose proof (proj1 (reads_get features raw X) R) as G.
  destruct (pca_fit_inv svd nc center features raw idx st F) as (X' & chosen' & G' & P' & N).
  assert (X' = X) by congruence. subst X'. assert (chosen' = chosen) by (eapply chosen_unique; eauto). subst chosen'.
  rewrite (pca_fit_is svd nc center features raw X idx chosen G RX P N) in F. injection F as <-. fold d.
  pose proof (rect_chosen (body X) idx chosen d RX P) as RC.
  set (st := state_of svd nc center d chosen).
  destruct SV as (LV & RV & OV & U & s & UO & SD & FA). fold v in LV, RV, OV, UO, SD, FA.
  assert (LS : length (seen_rows center d chosen) = length chosen) by (unfold seen_rows; apply map_length).
  rewrite LS in *.
  assert (FA' : forall i j, (i < length chosen)%nat -> (j < d)%nat ->
     seen center chosen (nth i chosen []) j == sum_to (length v) (fun a => U i a * s a * coords (nth a v []) j)).
  { intros i j Hi Hj. pose proof (FA i j Hi Hj) as E. unfold entry at 1 in E. unfold seen_rows in E.
    rewrite (nth_map_in _ _ i []) in E by exact Hi. rewrite nth_seq_map in E by exact Hj. exact E. }
  set (k := length (p_components st)).
  assert (KL : (k <= length v)%nat) by apply k_le.
  assert (TR : pca_transform center (Some st) (Some {| width := d; body := chosen |}) empty = Ok (map (pca_row center st) chosen)).
  { apply pca_transform_is; [|exact LE]. cbn [width]. unfold st. cbn [state_of p_mean]. unfold mean_of. destruct center; now rewrite map_length, seq_length. }
  assert (SUM : forall (f : list Q -> Q), Qsum (map f (map (pca_row center st) chosen)) = sum_to (length chosen) (fun i => f (pca_row center st (nth i chosen [])))).
  { intros f. rewrite map_map. apply (sum_rows (fun r => f (pca_row center st r)) chosen []). }
  assert (NTH : forall i a, (i < length chosen)%nat -> (a < k)%nat -> nth a (pca_row center st (nth i chosen [])) 0 = inner d (seen center chosen (nth i chosen [])) (coords (nth a v []))).
  { intros i a Hi Ha. apply row_nth; [exact RV|apply RC, nth_In, Hi|exact Ha]. }
  assert (SQ : forall a b, (a < k)%nat -> (b < k)%nat -> Qsum (map (fun z => nth a z 0 * nth b z 0) (map (pca_row center st) chosen)) == s a * s b * delta a b).
  { intros a b Ha Hb. rewrite SUM.
    rewrite (sum_ext _ _ (fun i => inner d (seen center chosen (nth i chosen [])) (coords (nth a v [])) * inner d (seen center chosen (nth i chosen [])) (coords (nth b v [])))).
    - apply (gram_out svd center d chosen OV U s UO FA'); fold v; lia.
    - intros i Hi. rewrite !NTH by assumption. reflexivity. }
  exists (map (pca_row center st) chosen), k. split; [exact TR|]. split; [apply map_length|]. split; [|split; [|split; [|split; [|split]]]].
  - intros z Hz. apply in_map_iff in Hz as (r & <- & Hr). apply row_len. auto.
  - intros NC i i' r r' z z' H1 H2 H3 H4.
    rewrite (map_nth_error _ _ _ H1) in H3. rewrite (map_nth_error _ _ _ H2) in H4. injection H3 as <-. injection H4 as <-.
    assert (Hi : (i < length chosen)%nat) by (apply nth_error_Some; congruence).
    assert (Hi' : (i' < length chosen)%nat) by (apply nth_error_Some; congruence).
    rewrite <- (nth_error_nth _ _ [] H1), <- (nth_error_nth _ _ [] H2).
    apply (isometry svd nc center d chosen RV OV U s FA' RC); [|assumption|assumption].
    fold v. change (length (firstn (chosen_k nc d v) v) = length v). rewrite firstn_length. unfold chosen_k, lenZ. lia.
  - intros -> a Ha. rewrite SUM. rewrite (sum_ext _ _ (fun i => inner d (seen true chosen (nth i chosen [])) (coords (nth a v [])))).
    2:{ intros i Hi. rewrite NTH by assumption. reflexivity. }
    unfold inner. rewrite sum_swap. apply sum_zero. intros j _. rewrite sum_scale_r.
    pose proof (seen_sum chosen j N) as Z. rewrite (sum_rows (fun r => seen true chosen r j) chosen []) in Z. rewrite Z. ring.
  - intros a b Ha Hb NE. rewrite SQ by assumption. unfold delta. destruct (Nat.eqb_spec a b); [contradiction|ring].
  - intros a b L Hb. rewrite !SQ by lia. unfold delta. rewrite !Nat.eqb_refl. destruct (SD a b L) as [S1 S2]; [lia|].
    clear - S1 S2. nra.
  - intros w m Hm W1 O. rewrite SQ by assumption. unfold delta. rewrite Nat.eqb_refl.
    rewrite (sum_rows (fun r => inner d (seen center chosen r) w * inner d (seen center chosen r) w) chosen []).
    pose proof (spread svd center d chosen OV U s UO SD FA' w m) as SP. fold v in SP.
    assert (E : s m * s m * inner d w w == s m * s m * 1) by (rewrite W1; reflexivity).
    rewrite E in SP. apply SP; [lia|exact O].
Qed.
(* C118: a row without a known cell is put in the middle: all its coordinates are 0 when centred. *)
Theorem C118_unknown_row : forall svd nc features raw (X T : array cell) idx chosen st empty out i r z a,
  let d := width X in let v := svd d (seen_rows true d chosen) in
  reads features raw X -> rectangular d (body X) -> picked (body X) idx chosen ->
  pca_fit svd nc true features raw idx = Ok st ->
  (forall r, In r v -> length r = d) ->
  width T = d -> rectangular d (body T) -> length empty = length (body T) ->
  pca_transform true (Some st) (Some T) empty = Ok out ->
  nth_error (body T) i = Some r -> (forall c, In c r -> c = None) -> nth_error out i = Some z -> (a < length z)%nat -> nth a z 0 == 0.
Proof.
  intros svd nc features raw X T idx chosen st empty out i r z a d v R RX P F Rv WT RT LE TR H1 NONE H3 Ha.
  pose proof (proj1 (reads_get features raw X) R) as G.
  destruct (pca_fit_inv svd nc true features raw idx st F) as (X' & chosen' & G' & P' & N).
  assert (X' = X) by congruence. subst X'. assert (chosen' = chosen) by (eapply chosen_unique; eauto). subst chosen'.
  rewrite (pca_fit_is svd nc true features raw X idx chosen G RX P N) in F. injection F as <-.
  rewrite pca_transform_is in TR; [|cbn [state_of p_mean]; unfold mean_of; now rewrite map_length, seq_length|exact LE].
  injection TR as <-. rewrite (map_nth_error _ _ _ H1) in H3. injection H3 as <-.
  assert (Lr : length r = d) by (apply RT; eapply nth_error_In, H1).
  rewrite row_len in Ha by exact Lr. rewrite row_nth by assumption. apply sum_zero. intros j Hj.
  assert (S0 : seen true chosen r j == 0); [|rewrite S0; ring].
  unfold seen, value. assert (E0 : nth j r None = None) by (apply NONE, nth_In; lia). unfold cell in *. rewrite E0.
  (* the average of the completed column is the average of its known cells *)
  unfold middle. set (A := average_known chosen j).
  assert (SUMV : Qsum (map (fun r => value chosen r j) chosen) == inject_Z (lenZ chosen) * A).
  { assert (K : forall l, Qsum (map (fun r => value chosen r j) l) == Qsum (known l j) + (inject_Z (lenZ l) - inject_Z (lenZ (known l j))) * A).
    { clear. induction l as [|r l IH]; [cbn; ring|]. cbn [map]. rewrite Qsum_cons, IH. unfold known at 3 4. cbn [flat_map]. fold (known l j).
      rewrite Qsum_app. unfold value at 1. fold A. unfold lenZ. rewrite app_length. cbn [length]. rewrite !Nat2Z.inj_succ, Nat2Z.inj_add.
      unfold Z.succ. rewrite !inject_Z_plus. destruct (nth j r None) as [q|]; cbn [length Qsum fold_right]; change (inject_Z (Z.of_nat 1)) with 1; change (inject_Z (Z.of_nat 0)) with 0; change (inject_Z 1) with 1; ring. }
    rewrite (K chosen). assert (KA : Qsum (known chosen j) == inject_Z (lenZ (known chosen j)) * A).
    { unfold A, average_known. destruct (known chosen j) as [|q l] eqn:E; [cbn; ring|]. rewrite <- E.
      pose proof (lenZ_pos (known chosen j) ltac:(congruence)). field. lra. }
    rewrite KA. ring. }
  rewrite SUMV. pose proof (lenZ_pos chosen N). field. lra.
Qed.
(* four rows on a line through the middle (1, 1): a decomposition of them meets the hypotheses *)
Definition line_rows : list (list (option Q)) := [[Some 4; Some 5]; [Some (-2); Some (-3)]; [Some 4; Some 5]; [Some (-2); Some (-3)]].
Definition line_svd (d : nat) (M : mat) : mat := [[3 # 5; 4 # 5]; [- (4 # 5); 3 # 5]].
Example C118_case :
  svd_of 2 (seen_rows true 2 line_rows) (line_svd 2 (seen_rows true 2 line_rows)) /\
  picked line_rows [0; 1; 2; -1]%Z line_rows /\
  exists st out, pca_fit line_svd 1 true None (Some {| width := 2; body := line_rows |}) [0; 1; 2; -1]%Z = Ok st /\
    pca_transform true (Some st) (Some {| width := 2; body := line_rows ++ [[None; None]] |}) (repeat [] 5) = Ok out /\
    map (map Qred) out = [[5]; [-5]; [5]; [-5]; [0]].
Proof.
  split; [|split].
  - split; [reflexivity|]. split; [intros r [<-|[<-|[]]]; reflexivity|]. split.
    { intros a b Ha Hb. cbn [line_svd length] in Ha, Hb.
      destruct a as [|[|a]]; destruct b as [|[|b]]; try lia; reflexivity. }
    exists (fun i a => nth a (nth i [[1 # 2; 1 # 2]; [- (1 # 2); 1 # 2]; [1 # 2; - (1 # 2)]; [- (1 # 2); - (1 # 2)]] []) 0), (fun a => if Nat.eqb a 0 then 10 else 0).
    split; [|split].
    + intros a b Ha Hb. cbn [line_svd length] in Ha, Hb. destruct a as [|[|a]]; destruct b as [|[|b]]; try lia; reflexivity.
    + intros a b L Hb. cbn [line_svd length] in Hb. destruct a as [|[|a]]; destruct b as [|[|b]]; try lia; cbn; split; lra.
    + intros i j Hi Hj. change (length (seen_rows true 2 line_rows)) with 4%nat in Hi.
      destruct i as [|[|[|[|i]]]]; [| | | |lia]; (destruct j as [|[|j]]; [| |lia]); vm_compute; reflexivity.
  - repeat constructor; unfold designates, lenZ; cbn; lia.
  - eexists. eexists. split; [vm_compute; reflexivity|]. split; vm_compute; reflexivity.
Qed.
(* C118 does not extend to "a fitted step can transform the array it was fitted on": fitting falls back
   on raw.X, transforming does not. *)
Theorem C118_raw_refuted : forall svd nc center (X : array cell) idx,
  idx <> [] -> (forall i, In i idx -> (- lenZ (body X) <= i < lenZ (body X))%Z) ->
  exists st, pca_fit svd nc center None (Some X) idx = Ok st /\ forall empty, pca_transform center (Some st) None empty = Err KeyError.
Proof.
  intros svd nc center X idx N I. destruct (proj2 (C118_fit_returns svd nc center None (Some X) idx)) as (st & F).
  - exists X. split; [now right|]. split; assumption.
  - exists st. split; [exact F|reflexivity].
Qed.

(* C119: when whitening succeeds. *)
Theorem C119_returns : forall eigh isqrt eps mf (X : images) idx,
  ((exists st, zca_fit eigh isqrt eps mf (Some X) idx = Ok st) <->
   row_shape X <> [] /\ idx <> [] /\ (forall i, In i idx -> (- lenZ (flat X) <= i < lenZ (flat X))%Z) /\ (Z.of_nat (row_cells X) <= mf)%Z) /\
  forall st T, zca_fit eigh isqrt eps mf (Some X) idx = Ok st ->
    ((exists out, zca_transform (Some st) (Some T) = Ok out) <-> row_shape T <> [] /\ flat T <> [] /\ row_cells T = row_cells X).
Proof.
  intros eigh isqrt eps mf X idx. split.
  - split.
    + intros (st & H). apply zca_fit_ok in H. destruct H as (X' & chosen & [= <-] & S & F & N & L & _).
      split; [exact S|]. split; [intros ->; inversion F; subst; contradiction|]. split; [|exact L].
      apply take_rows_total. exists chosen. now apply take_rows_ok.
    + intros (S & N & I & L). apply take_rows_total in I. destruct I as (chosen & T). apply take_rows_ok in T.
      eexists. apply zca_fit_ok. exists X, chosen. split; [reflexivity|]. split; [exact S|]. split; [exact T|].
      split; [intros ->; inversion T; subst; contradiction|]. split; [exact L|reflexivity].
  - intros st T H. apply zca_fit_ok in H. destruct H as (X' & chosen & [= <-] & S & F & N & L & ->). split.
    + intros (out & O). apply zca_transform_ok in O. tauto.
    + intros O. eexists. apply zca_transform_ok. split; [apply O|]. split; [apply O|]. split; [apply O|reflexivity].
Qed.
(* C119: the fit rows come out with average 0 and with variance at most 1 in every direction, and at
   least v / (v + eps) when the input varies by at least v in every direction; no image is turned to
   the opposite side of the average. *)
Theorem C119_whitening : forall eigh isqrt eps mf (X : images) idx chosen st,
  let d := row_cells X in
  rectangular d (flat X) -> picked (flat X) idx chosen ->
  zca_fit eigh isqrt eps mf (Some X) idx = Ok st -> 0 <= eps ->
  (forall C, (forall i j, (i < d)%nat -> (j < d)%nat -> entry C i j == covariance chosen i j) ->
     let (s, u) := eigh d C in eigh_of d (entry C) s u /\
       forall q t, In q s -> t == q + eps -> 0 < isqrt t /\ isqrt t * isqrt t * t == 1) ->
  exists out, zca_transform (Some st) (Some {| row_shape := row_shape X; flat := chosen |}) = Ok out /\
    row_shape out = row_shape X /\ length (flat out) = length chosen /\ rectangular d (flat out) /\
    (forall j, (j < d)%nat -> average (flat out) j == 0) /\
    (forall w, variance d (flat out) w <= inner d w w) /\
    (forall v, 0 < v -> (forall w, v * inner d w w <= variance d chosen w) ->
       forall w, v / (v + eps) * inner d w w <= variance d (flat out) w) /\
    (forall i r o, nth_error chosen i = Some r -> nth_error (flat out) i = Some o ->
       0 <= inner d (coords o) (fun j => nth j r 0 - average chosen j)).
Proof.
  intros eigh isqrt eps mf X idx chosen st d RX P F PE SPEC.
  apply zca_fit_ok in F. destruct F as (X' & chosen' & [= <-] & S & F & N & L & ->). fold d.
  assert (chosen' = chosen) by (eapply chosen_unique; eauto). subst chosen'.
  pose proof (rect_chosen (flat X) idx chosen d RX P) as RC.
  pose proof (SPEC (cov_of d chosen)) as SP.
  destruct (eigh d (cov_of d chosen)) as [s u] eqn:EU.
  destruct SP as [EIG ISQ]; [intros i j Hi Hj; now apply cov_entry|].
  assert (EC : eigh_of d (covariance chosen) s u).
  { destruct EIG as (E1 & E2 & E3 & E4). split; [exact E1|]. split; [exact E2|]. split; [exact E3|].
    intros i j Hi Hj. rewrite <- (cov_entry d chosen i j RC N Hi Hj). now apply E4. }
  set (inv := fun a => nth a (inv_of isqrt eps s) 0).
  assert (Ls : length s = d) by apply EIG.
  assert (INV : forall a, (a < d)%nat -> 0 < inv a /\ inv a * inv a * (nth a s 0 + eps) == 1).
  { intros a Ha. pose proof (eig_nonneg d chosen N s u EC a Ha) as S0. unfold inv, inv_of.
    rewrite (nth_map_in _ _ a 0) by lia.
    assert (TT : clamp0 (nth a s 0) + eps == nth a s 0 + eps).
    { unfold clamp0. destruct (Qle_bool (nth a s 0) 0) eqn:B; [|reflexivity]. apply Qle_bool_iff in B. lra. }
    destruct (ISQ (nth a s 0) (clamp0 (nth a s 0) + eps)) as [I1 I2]; [apply nth_In; lia|exact TT|].
    split; [exact I1|]. rewrite <- TT. exact I2. }
  set (out := map (fun r => map (fun j => whitened d u inv (dev chosen r) j) (seq 0 d)) chosen).
  assert (OUT : map (fun r => map (fun j => Qsum (map (fun i => nth i (subtract r (col_means d chosen)) 0 * entry (z_W (zstate eigh isqrt d eps chosen (row_shape X))) i j) (seq 0 d))) (seq 0 d)) chosen = out).
  { unfold out. apply map_ext_in. intros r Hr. apply map_ext_in. intros j Hj. apply in_seq in Hj.
    rewrite (out_row eigh isqrt d eps chosen (row_shape X) r j) by (auto; lia). rewrite EU. reflexivity. }
  exists {| row_shape := row_shape X; flat := out |}.
  split; [|split; [reflexivity|]].
  { apply zca_transform_ok. split; [exact S|]. split; [exact N|]. split; [reflexivity|]. cbn [flat]. now rewrite OUT. }
  cbn [flat]. split; [apply map_length|]. split; [|split; [|split; [|split]]].
  - intros r Hr. apply in_map_iff in Hr as (r' & <- & _). now rewrite map_length, seq_length.
  - intros j Hj. now apply (out_average d chosen N u inv out eq_refl).
  - intros w. rewrite (out_variance d chosen N s u inv EC out eq_refl w). rewrite <- (parseval d chosen s u EC w).
    apply sum_le. intros a Ha. destruct (INV a Ha) as [I1 I2]. pose proof (eig_nonneg d chosen N s u EC a Ha) as S0.
    set (c := inner d (fun i => entry u i a) w). assert (C0 : 0 <= c * c) by nra.
    assert (I0 : 0 <= inv a * inv a) by nra.
    assert (I3 : nth a s 0 * (inv a * inv a) <= 1).
    { assert (E0 : 0 <= eps * (inv a * inv a)) by (apply Qmult_le_0_compat; assumption).
      assert (I4 : nth a s 0 * (inv a * inv a) + eps * (inv a * inv a) == 1) by (rewrite <- I2; ring). lra. }
    setoid_replace (c * c) with (1 * (c * c)) at 2 by ring. apply Qmult_le_compat_r; assumption.
  - intros v Pv V w. rewrite (out_variance d chosen N s u inv EC out eq_refl w). rewrite <- (parseval d chosen s u EC w).
    rewrite <- sum_scale. apply sum_le. intros a Ha. destruct (INV a Ha) as [I1 I2].
    assert (Sv : v <= nth a s 0).
    { pose proof (V (fun i => entry u i a)) as B. rewrite (eig_variance d chosen N s u EC a Ha) in B.
      rewrite (orth_cols d chosen s u EC a a Ha Ha) in B. unfold delta in B. rewrite Nat.eqb_refl in B. lra. }
    set (c := inner d (fun i => entry u i a) w). assert (C0 : 0 <= c * c) by nra.
    apply Qmult_le_compat_r; [|exact C0].
    assert (PS : 0 < nth a s 0 + eps) by lra. assert (PV : 0 < v + eps) by lra.
    assert (EQ : inv a * inv a == / (nth a s 0 + eps)).
    { apply (Qmult_inj_r _ _ (nth a s 0 + eps)); [lra|]. rewrite I2. field. lra. }
    rewrite EQ. change (v / (v + eps) <= nth a s 0 / (nth a s 0 + eps)).
    apply Qle_shift_div_r; [exact PV|]. unfold Qdiv. rewrite <- Qmult_assoc, (Qmult_comm (/ _)), Qmult_assoc.
    apply Qle_shift_div_l; [exact PS|]. set (q := nth a s 0) in *. clearbody q. nra.
  - intros i r o Hr Ho. unfold out in Ho. rewrite (map_nth_error _ _ _ Hr) in Ho. injection Ho as <-.
    rewrite (inner_ext d _ _ (whitened d u inv (dev chosen r)) (dev chosen r)).
    + rewrite whitened_inner. apply sum_nonneg. intros a Ha. destruct (INV a Ha) as [I1 _].
      rewrite (inner_sym d (dev chosen r)). set (c := inner d _ _). assert (C0 : 0 <= c * c) by nra.
      rewrite <- Qmult_assoc. apply Qmult_le_0_compat; [lra|exact C0].
    + intros j Hj. unfold coords. now rewrite nth_seq_map.
    + intros j Hj. reflexivity.
Qed.
(* C119: a row of the result depends on the same row and the fitted state only. *)
Theorem C119_row_by_row : forall (st : zca), exists f, forall T out,
  zca_transform (Some st) (Some T) = Ok out -> flat out = map f (flat T) /\ row_shape out = z_shape st.
Proof.
  intros st. eexists. intros T out. unfold zca_transform. destruct (row_shape T); [discriminate|].
  destruct (flat T) eqn:FT; [discriminate|]. rewrite <- FT. destruct (negb _); [discriminate|]. intros [= <-]. split; reflexivity.
Qed.
Definition square_images : images := {| row_shape := [1; 2]%nat; flat := [[3; 1]; [-1; 1]; [3; 3]; [-1; 3]] |}.
Definition square_eigh (d : nat) (C : mat) : list Q * mat := ([4; 1], [[1; 0]; [0; 1]]).
Definition square_isqrt (t : Q) : Q := if Qeq_bool t 4 then 1 # 2 else 1.
Example C119_case :
  (forall C, (forall i j, (i < 2)%nat -> (j < 2)%nat -> entry C i j == covariance (flat square_images) i j) ->
     let (s, u) := square_eigh 2 C in eigh_of 2 (entry C) s u /\
       forall q t, In q s -> t == q + 0 -> 0 < square_isqrt t /\ square_isqrt t * square_isqrt t * t == 1) /\
  exists st out, zca_fit square_eigh square_isqrt 0 4096 (Some square_images) [0; 1; 2; 3]%Z = Ok st /\
    zca_transform (Some st) (Some square_images) = Ok out /\ map (map Qred) (flat out) = [[1; -1]; [-1; -1]; [1; 1]; [-1; 1]].
Proof.
  split.
  - intros C HC. unfold square_eigh. split.
    + split; [reflexivity|]. split; [|split].
      * intros a b Ha Hb. destruct a as [|[|a]]; destruct b as [|[|b]]; try lia; reflexivity.
      * intros a b Ha Hb. destruct a as [|[|a]]; destruct b as [|[|b]]; try lia; reflexivity.
      * intros i j Hi Hj. rewrite HC by assumption. destruct i as [|[|i]]; destruct j as [|[|j]]; try lia; vm_compute; reflexivity.
    + intros q t Hq T. unfold square_isqrt. destruct (Qeq_bool t 4) eqn:B.
      * apply Qeq_bool_iff in B. split; [lra|]. rewrite B. reflexivity.
      * apply Qeq_bool_neq in B. destruct Hq as [<-|[<-|[]]]; [exfalso; apply B; rewrite T; reflexivity|].
        split; [lra|]. rewrite T. reflexivity.
  - eexists. eexists. split; [vm_compute; reflexivity|]. split; vm_compute; reflexivity.
Qed.
(* C119 does not extend to "the result has the shape of the input": images of another shape with as
   many cells come out with the shape of the fit images. *)
Theorem C119_shape_refuted :
  exists eigh isqrt eps X T st out, zca_fit eigh isqrt eps 4096 (Some X) [0; 1]%Z = Ok st /\
    zca_transform (Some st) (Some T) = Ok out /\ row_shape T = [2; 3]%nat /\ row_shape out = [3; 2]%nat.
Proof.
  exists (fun _ _ => ([], [])), (fun _ => 0), 0, {| row_shape := [3; 2]%nat; flat := [[0; 0; 0; 0; 0; 0]; [1; 1; 1; 1; 1; 1]] |},
    {| row_shape := [2; 3]%nat; flat := [[0; 0; 0; 0; 0; 0]] |}.
  eexists. eexists. split; [vm_compute; reflexivity|]. split; [vm_compute; reflexivity|]. split; reflexivity.
Qed.

(* C120: the random matrix depends on the generator, the width of the array and the number of
   components only; the projection is linear, row by row, with exactly n_components columns. *)
Theorem C120_fit : forall normal root nc normalize (X X' : array Q),
  ((exists W, rp_fit normal root nc normalize (Some X) = Ok W) <-> (0 < nc)%Z) /\
  (width X = width X' -> rp_fit normal root nc normalize (Some X) = rp_fit normal root nc normalize (Some X')).
Proof.
  intros normal root nc normalize X X'. unfold rp_fit. split.
  - destruct (Z.leb_spec nc 0); split; intros A; [destruct A; discriminate|lia|lia|eauto].
  - intros ->. reflexivity.
Qed.
Theorem C120_linear : forall normal root nc normalize (X T : array Q) W,
  (forall n k, length (normal n k) = n) ->
  rp_fit normal root nc normalize (Some X) = Ok W ->
  width T = width X -> rectangular (width T) (body T) ->
  exists out, rp_transform (Some W) (Z.to_nat nc) (Some T) = Ok out /\ length out = length (body T) /\
    rectangular (Z.to_nat nc) out /\
    (forall i r z c, nth_error (body T) i = Some r -> nth_error out i = Some z -> (c < Z.to_nat nc)%nat ->
       nth c z 0 == inner (width X) (coords r) (fun j => entry W j c)) /\
    (forall i1 i2 i3 a b r1 r2 r3 z1 z2 z3,
       nth_error (body T) i1 = Some r1 -> nth_error (body T) i2 = Some r2 -> nth_error (body T) i3 = Some r3 ->
       nth_error out i1 = Some z1 -> nth_error out i2 = Some z2 -> nth_error out i3 = Some z3 ->
       (forall j, (j < width X)%nat -> nth j r3 0 == a * nth j r1 0 + b * nth j r2 0) ->
       forall c, (c < Z.to_nat nc)%nat -> nth c z3 0 == a * nth c z1 0 + b * nth c z2 0).
Proof.
  intros normal root nc normalize X T W LN F WT RT.
  assert (LW : length W = width X).
  { unfold rp_fit in F. destruct (nc <=? 0)%Z; [discriminate|]. injection F as <-. destruct normalize; rewrite ?map_length; apply LN. }
  unfold rp_transform. rewrite WT, <- LW, Nat.eqb_refl. rewrite LW. eexists. split; [reflexivity|].
  assert (E : forall i r z c, nth_error (body T) i = Some r -> nth_error (matmul (body T) W (Z.to_nat nc)) i = Some z -> (c < Z.to_nat nc)%nat ->
       nth c z 0 == inner (width X) (coords r) (fun j => entry W j c)).
  { intros i r z c Hr Hz Hc. unfold matmul in Hz. rewrite (map_nth_error _ _ _ Hr) in Hz. injection Hz as <-.
    rewrite nth_seq_map by exact Hc. unfold inner, sum_to.
    rewrite (combine_as_map (fun p : Q * list Q => fst p * nth c (snd p) 0) r W (width X) 0 []); [reflexivity| |exact LW].
    rewrite <- WT. apply RT. eapply nth_error_In, Hr. }
  split; [unfold matmul; apply map_length|]. split; [|split; [exact E|]].
  - intros z Hz. unfold matmul in Hz. apply in_map_iff in Hz as (r & <- & _). now rewrite map_length, seq_length.
  - intros i1 i2 i3 a b r1 r2 r3 z1 z2 z3 A1 A2 A3 B1 B2 B3 L c Hc.
    rewrite (E i1 r1 z1 c A1 B1 Hc), (E i2 r2 z2 c A2 B2 Hc), (E i3 r3 z3 c A3 B3 Hc).
    unfold inner. rewrite <- !sum_scale, <- sum_plus. apply sum_ext. intros j Hj. unfold coords. rewrite (L j Hj). ring.
Qed.
Example C120_case :
  exists W out, rp_fit (fun n k => repeat (map (fun c => inject_Z (Z.of_nat c)) (seq 0 k)) n) (fun _ => 2) 3 true (Some {| width := 2; body := [[1; 2]] |}) = Ok W /\
    rp_transform (Some W) 3 (Some {| width := 2; body := [[1; 2]; [0; 4]] |}) = Ok out /\ map (map Qred) out = [[0; 3 # 2; 3]; [0; 2; 4]].
Proof. eexists. eexists. split; [vm_compute; reflexivity|]. split; vm_compute; reflexivity. Qed.

Print Assumptions C118_fit_returns.
Print Assumptions C118_fit_rows_only.
Print Assumptions C118_row_by_row.
Print Assumptions C118_distances.
Print Assumptions C118_fit_geometry.
Print Assumptions C118_unknown_row.
Print Assumptions C118_raw_refuted.
Print Assumptions C119_returns.
Print Assumptions C119_whitening.
Print Assumptions C119_row_by_row.
Print Assumptions C119_shape_refuted.
Print Assumptions C120_fit.
Print Assumptions C120_linear.
