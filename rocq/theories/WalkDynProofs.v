(* Proofs about dynamic label propagation. *)
From Coq Require Import QArith Qminmax Qabs Lqa ZifyBool ZifyNat.
From Verif Require Import Prelude ListFacts SampleServiceProofs QFacts TransModel TransSpec TransProofs TransSolveProofs WalkModel WalkSpec WalkProofs.
Local Open Scope Q_scope.
Local Open Scope list_scope.

Section Knn.
Variable top : nat -> nat -> list Q -> list nat.
Hypothesis Htop : picks_largest top.
Lemma knn_rows_ok k : forall P0 i P, knn_rows top k i P0 = Ok P -> List.length P = List.length P0 /\
  forall r, (r < List.length P0)%nat -> knn_row top k (i + r) (nth r P0 []) = Ok (nth r P []).
Proof using Type.
  induction P0 as [|row rest IH]; intros i P H; cbn [knn_rows] in H; [injection H as <-; split; [reflexivity|cbn; lia]|]. inv_bind H. inv_bind H. injection H as <-.
  destruct (IH _ _ E0) as [Hl Hr]. split; [cbn; lia|]. intros [|r] Hlt; cbn [nth].
  - rewrite Nat.add_0_r. exact E.
  - rewrite <- Hr by (cbn in Hlt; lia). f_equal. lia.
Qed.
Lemma knn_rows_total k : forall P0 i, (forall r, (r < List.length P0)%nat -> exists p, knn_row top k (i + r) (nth r P0 []) = Ok p) -> exists P, knn_rows top k i P0 = Ok P.
Proof using Type.
  induction P0 as [|row rest IH]; intros i H; cbn [knn_rows]; [eauto|]. destruct (H O ltac:(cbn; lia)) as (p & Hp). cbn [nth] in Hp. rewrite Nat.add_0_r in Hp. rewrite Hp. cbn [bind].
  destruct (IH (S i)) as (ps & Hps).
  - intros r Hr. destruct (H (S r) ltac:(cbn; lia)) as (p' & Hp'). cbn [nth] in Hp'. exists p'. rewrite <- Hp'. f_equal. lia.
  - rewrite Hps. cbn [bind]. eauto.
Qed.
Lemma existsb_eqb j l : existsb (Nat.eqb j) l = true <-> In j l.
Proof using Type. rewrite existsb_exists. split; [intros (x & Hx & E); apply Nat.eqb_eq in E; subst; exact Hx|intros H; exists j; split; [exact H|apply Nat.eqb_refl]]. Qed.
Lemma knn_matrix_ok n P0 k P : shape n n P0 -> (0 < k)%Z -> knn_matrix top P0 k = Ok P -> shape n n P /\ sparsified n k (entry P0) (entry P).
Proof using All.
  intros [HL HR] Hk H. unfold knn_matrix in H. unfold sparsified. unfold lenZ in H. rewrite HL in H. replace (k <=? 0)%Z with false in H by lia. cbn [orb] in H.
  destruct (k >=? Z.of_nat n)%Z eqn:Ek.
  - injection H as <-. split; [split; assumption|]. intros. reflexivity.
  - destruct (knn_rows_ok _ _ _ _ H) as [Hl Hrow]. rewrite HL in Hl, Hrow.
    assert (Hr : forall i, (i < n)%nat -> knn_row top (Z.to_nat k) i (nth i P0 []) = Ok (nth i P [])) by (intros i Hi; exact (Hrow i Hi)).
    assert (Hlen : forall i, (i < n)%nat -> List.length (nth i P0 []) = n) by (intros i Hi; apply HR, nth_In; lia).
    split; [split; [exact Hl|]|].
    + intros r Hin. apply (In_nth _ _ []) in Hin as (i & Hi & <-). rewrite Hl in Hi. specialize (Hr i Hi). unfold knn_row in Hr. destruct (Qle_bool _ 0); [discriminate|]. injection Hr as <-. rewrite map_length, seq_length. apply Hlen, Hi.
    + intros i Hi. specialize (Hr i Hi). unfold knn_row in Hr. destruct (Htop (Z.to_nat k) i (nth i P0 []) ltac:(rewrite Hlen; lia) ltac:(rewrite Hlen; lia)) as (T1 & T2 & T3 & T4).
      rewrite Hlen in T3, T4, Hr by exact Hi. exists (top (Z.to_nat k) i (nth i P0 [])). split; [exact T1|]. split; [exact T2|]. split; [exact T3|]. split; [exact T4|].
      destruct (Qle_bool _ 0) eqn:Eq0; [discriminate|]. injection Hr as Hr. split; [apply Qnot_le_lt; intros Hc; apply Qle_bool_iff in Hc; unfold entry in Hc; congruence|].
      assert (He : forall j, (j < n)%nat -> entry P i j = if existsb (Nat.eqb j) (top (Z.to_nat k) i (nth i P0 [])) then entry P0 i j / Qsum (map (entry P0 i) (top (Z.to_nat k) i (nth i P0 []))) else 0).
      { intros j Hj. unfold entry at 1. rewrite <- Hr. rewrite (nth_map_in _ (seq 0 n) j O 0) by (rewrite seq_length; exact Hj). rewrite seq_nth by exact Hj. reflexivity. }
      split.
      * intros j Hj. rewrite He by apply (T3 j Hj). apply existsb_eqb in Hj. rewrite Hj. reflexivity.
      * intros j Hj Hn. rewrite He by exact Hj. destruct (existsb (Nat.eqb j) _) eqn:Ex; [apply existsb_eqb in Ex; contradiction|reflexivity].
Qed.
Lemma sum_ge_one (f : nat -> Q) l j : (forall x, In x l -> 0 <= f x) -> In j l -> f j <= Qsum (map f l).
Proof using Type.
  induction l as [|a l IH]; intros Hp Hj; [destruct Hj|]. cbn [map]. rewrite Qsum_cons.
  assert (Ha := Hp a (or_introl eq_refl)). assert (Hs : 0 <= Qsum (map f l)) by (apply Qsum_nonneg; intros x Hx; apply in_map_iff in Hx as (z & <- & Hz); apply Hp; right; exact Hz).
  destruct Hj as [->|Hj]; [lra|]. assert (H := IH (fun x Hx => Hp x (or_intror Hx)) Hj). lra.
Qed.
Lemma knn_matrix_total n P0 k : shape n n P0 -> (0 < k)%Z -> (forall i j, (i < n)%nat -> (j < n)%nat -> 0 <= entry P0 i j) ->
  (forall i, (i < n)%nat -> exists j, (j < n)%nat /\ j <> i /\ 0 < entry P0 i j) -> exists P, knn_matrix top P0 k = Ok P.
Proof using All.
  intros [HL HR] Hk Hp Hpos. unfold knn_matrix. unfold lenZ. rewrite HL. replace (k <=? 0)%Z with false by lia. cbn [orb]. destruct (k >=? Z.of_nat n)%Z eqn:Ek; [eauto|].
  apply knn_rows_total. intros i Hi. cbn [plus]. rewrite HL in Hi. assert (Hlen : List.length (nth i P0 []) = n) by (apply HR, nth_In; lia).
  destruct (Htop (Z.to_nat k) i (nth i P0 []) ltac:(rewrite Hlen; lia) ltac:(rewrite Hlen; lia)) as (T1 & T2 & T3 & T4). rewrite Hlen in T3, T4. unfold knn_row.
  destruct (Qle_bool _ 0) eqn:Es; [exfalso|eauto]. apply Qle_bool_iff in Es. destruct (Hpos i Hi) as (j & Hj & Hji & Hj0).
  set (idx := top (Z.to_nat k) i (nth i P0 [])) in *. change (Qsum (map (entry P0 i) idx) <= 0) in Es.
  assert (Hn : forall x, In x idx -> 0 <= entry P0 i x) by (intros x Hx; apply Hp; [exact Hi|apply T3, Hx]).
  destruct (in_dec Nat.eq_dec j idx) as [Hin|Hout].
  - assert (H := sum_ge_one _ _ _ Hn Hin). lra.
  - destruct idx as [|m idx'] eqn:Ei; [cbn in T2; lia|]. assert (Hm : In m (m :: idx')) by (left; reflexivity). assert (H := sum_ge_one _ _ _ Hn Hm). assert (H2 := T4 m j Hm Hj Hji Hout). unfold entry in *. lra.
Qed.
End Knn.

(* ---- one round *)
Lemma mm_entry n m k A B i c : (i < n)%nat -> (c < k)%nat -> entry (mm n m k A B) i c = Qsum (map (fun j => entry A i j * entry B j c) (seq 0 m)).
Proof. intros Hi Hc. unfold mm. apply entry_tabulate; assumption. Qed.
Lemma mm_shape n m k A B : shape n k (mm n m k A B). Proof. apply shape_tabulate. Qed.
Lemma transpose_entry n m A i j : (i < m)%nat -> (j < n)%nat -> entry (transpose n m A) i j = entry A j i.
Proof. intros. unfold transpose. rewrite entry_tabulate by assumption. reflexivity. Qed.
Lemma square_sum_ext n f g : (forall a b, (a < n)%nat -> (b < n)%nat -> f a b == g a b) -> square_sum n f == square_sum n g.
Proof. intros H. unfold square_sum. apply Qsum_ext. intros a Ha. apply in_seq in Ha. apply Qsum_ext. intros b Hb. apply in_seq in Hb. apply H; lia. Qed.
Lemma sum_classes_ext k f g : (forall c, (c < k)%nat -> f c == g c) -> sum_classes k f == sum_classes k g.
Proof. intros H. unfold sum_classes. apply Qsum_ext. intros c Hc. apply in_seq in Hc. apply H. lia. Qed.
Lemma round_entries n k P mask Y0 alpha lambda s : List.length mask = n -> shape n k Y0 ->
  let s' := dlp_round n k P mask Y0 alpha lambda s in
  shape n k (snd s') /\ shape n n (fst s') /\
  (forall i c, (i < n)%nat -> (c < k)%nat -> entry (snd s') i c == if nth i mask false then entry Y0 i c else Qsum (map (fun j => entry (fst s) i j * entry (snd s) j c) (seq 0 n))) /\
  (forall i j, (i < n)%nat -> (j < n)%nat -> entry (fst s') i j ==
     square_sum n (fun a b => entry P i a * (entry (fst s) a b + alpha * sum_classes k (fun c => entry (snd s) a c * entry (snd s) b c)) * entry P j b) + (if Nat.eqb i j then lambda else 0)).
Proof.
  intros Hm HY. destruct s as [Pt Yt]. cbn [dlp_round fst snd].
  set (YY := mm n k n Yt (transpose n k Yt)). set (X := tabulate n n (fun i j => entry Pt i j + alpha * entry YY i j)).
  set (Q1 := mm n n n (mm n n n P X) (transpose n n P)).
  assert (HX : forall a b, (a < n)%nat -> (b < n)%nat -> entry X a b == entry Pt a b + alpha * sum_classes k (fun c => entry Yt a c * entry Yt b c)).
  { intros a b Ha Hb. unfold X. rewrite entry_tabulate by assumption. unfold YY. rewrite mm_entry by assumption. unfold sum_classes. apply Qplus_comp; [reflexivity|]. apply Qmult_comp; [reflexivity|].
    apply Qsum_ext. intros c Hc. apply in_seq in Hc. rewrite transpose_entry by lia. reflexivity. }
  assert (HQ : forall i j, (i < n)%nat -> (j < n)%nat -> entry Q1 i j == square_sum n (fun a b => entry P i a * (entry Pt a b + alpha * sum_classes k (fun c => entry Yt a c * entry Yt b c)) * entry P j b)).
  { intros i j Hi Hj. unfold Q1. rewrite mm_entry by assumption.
    transitivity (Qsum (map (fun b => Qsum (map (fun a => entry P i a * entry X a b * entry P j b) (seq 0 n))) (seq 0 n))).
    - apply Qsum_ext. intros b Hb. apply in_seq in Hb. rewrite mm_entry, transpose_entry by lia. rewrite <- Qsum_scale_r. reflexivity.
    - rewrite Qsum_swap. unfold square_sum. apply Qsum_ext. intros a Ha. apply in_seq in Ha. apply Qsum_ext. intros b Hb. apply in_seq in Hb. rewrite HX by lia. reflexivity. }
  split; [apply clamp_shape; [exact Hm|exact HY|apply mm_shape]|]. split; [destruct (Qeq_bool lambda 0); apply shape_tabulate|]. split.
  - intros i c Hi Hc. unfold entry at 1. rewrite (clamp_row mask Y0 _ n i Hm (proj1 HY) (proj1 (mm_shape n n k Pt Yt)) Hi).
    destruct (nth i mask false); [reflexivity|]. fold (entry (mm n n k Pt Yt) i c). rewrite mm_entry by assumption. reflexivity.
  - intros i j Hi Hj. destruct (Qeq_bool lambda 0) eqn:El.
    + apply Qeq_bool_iff in El. rewrite HQ by assumption. destruct (Nat.eqb i j); [rewrite El|]; ring.
    + rewrite entry_tabulate by assumption. rewrite HQ by assumption. destruct (Nat.eqb i j); ring.
Qed.
Lemma dlp_loop_iter n k P mask Y0 alpha lambda : forall fuel s res,
  dlp_loop n k P mask Y0 alpha lambda fuel s res =
  (snd (Nat.iter fuel (dlp_round n k P mask Y0 alpha lambda) s),
   match fuel with O => res | S m => Some (max_diff (snd (Nat.iter fuel (dlp_round n k P mask Y0 alpha lambda) s)) (snd (Nat.iter m (dlp_round n k P mask Y0 alpha lambda) s))) end).
Proof.
  induction fuel as [|fuel IH]; intros s res; [reflexivity|]. cbn [dlp_loop]. cbv zeta. rewrite IH.
  assert (Hi : forall m x, Nat.iter m (dlp_round n k P mask Y0 alpha lambda) (dlp_round n k P mask Y0 alpha lambda x) = Nat.iter (S m) (dlp_round n k P mask Y0 alpha lambda) x).
  { induction m as [|m IHm]; intros x; [reflexivity|]. rewrite !iter_S. rewrite IHm. rewrite iter_S. reflexivity. }
  rewrite Hi. f_equal. destruct fuel as [|m]; [reflexivity|]. rewrite Hi. reflexivity.
Qed.

Section Program.
Variable top : nat -> nat -> list Q -> list nat.
Hypothesis Htop : picks_largest top.
Lemma dynamic_ok n ei weight y mask sp d : dynamic_propagation top n ei weight y mask sp = Ok d ->
  (0 < dl_k sp)%Z /\ 0 <= dl_alpha sp /\ exists E k P T L, validate_graph n ei weight = Ok E /\ List.length y = Z.to_nat n /\ List.length mask = Z.to_nat n /\
    (exists i, nth i mask false = true) /\ ~ has_isolated (Z.to_nat n) E /\ k = Z.to_nat (infer_num_classes y) /\ class_range y k /\
    (exists PP, knn_matrix top (tabulate (Z.to_nat n) (Z.to_nat n) (fun i j => entry (affinity E (Z.to_nat n)) i j / row_sum (affinity E (Z.to_nat n)) i)) (dl_k sp) = Ok PP /\ P = entry PP) /\
    sparsified (Z.to_nat n) (dl_k sp) (step_prob (Z.to_nat n) E) P /\
    dynamic_run (Z.to_nat n) k P (step_prob (Z.to_nat n) E) y mask (dl_alpha sp) (dl_lambda sp) T L /\
    shape (Z.to_nat n) k (d_F d) /\ agree (Z.to_nat n) k (entry (d_F d)) (L (Z.to_nat (dl_max_iter sp))) /\ d_iter d = dl_max_iter sp /\
    match d_residual d with
    | None => (dl_max_iter sp <= 0)%Z
    | Some r => (0 < dl_max_iter sp)%Z /\ largest_change (Z.to_nat n) k (L (Z.to_nat (dl_max_iter sp))) (L (Z.to_nat (dl_max_iter sp) - 1)%nat) r
    end.
Proof using All.
  intros H. unfold dynamic_propagation in H. destruct (dl_k sp <=? 0)%Z eqn:Ek; [discriminate|]. destruct (Qle_bool 0 (dl_alpha sp)) eqn:Ea; cbn [negb] in H; [|discriminate].
  split; [lia|]. split; [apply Qle_bool_iff, Ea|]. inv_bind H. rename a into E0. apply checked_ok in E as (EG & Hy & Hm & Hl). inv_bind H. apply onehot_ok in E as (Hk0 & Hlt & ->).
  set (nn := Z.to_nat n) in *. set (k := Z.to_nat (infer_num_classes y)) in *. destruct (isolated (affinity E0 nn)) eqn:Ei; [discriminate|]. inv_bind H. rename a into PP.
  set (P0 := tabulate nn nn (fun i j => entry (affinity E0 nn) i j / row_sum (affinity E0 nn) i)) in *. set (Y0 := zero_unlabelled mask (map (onehot_row k) y)) in *.
  assert (HS0 : shape nn nn P0) by apply shape_tabulate. destruct (knn_matrix_ok top Htop nn P0 (dl_k sp) PP HS0 ltac:(lia) E) as [HSP HPP].
  assert (HSY : shape nn k Y0) by (unfold Y0; apply zero_shape; [exact Hm|]; rewrite <- Hy; apply onehot_shape).
  assert (HY0 : forall i c, (i < nn)%nat -> (c < k)%nat -> entry Y0 i c == target y mask i c).
  { intros i c Hi Hc. unfold Y0. rewrite (label_entry y mask k i c) by lia. reflexivity. }
  assert (HP0 : forall i j, (i < nn)%nat -> (j < nn)%nat -> entry P0 i j = step_prob nn E0 i j).
  { intros i j Hi Hj. unfold P0. rewrite entry_tabulate by assumption. rewrite affinity_entry, affinity_row by assumption. reflexivity. }
  rewrite dlp_loop_iter in H. set (R := dlp_round nn k PP mask Y0 (dl_alpha sp) (dl_lambda sp)) in *. injection H as <-. cbn [d_F d_iter d_residual].
  assert (Hsh : forall m, shape nn k (snd (Nat.iter m R (P0, Y0)))).
  { intros [|m]; [exact HSY|]. cbn [Nat.iter nat_rect]. apply (round_entries nn k PP mask Y0 (dl_alpha sp) (dl_lambda sp) _ Hm HSY). }
  exists E0, k, (entry PP), (fun m => entry (fst (Nat.iter m R (P0, Y0)))), (fun m => entry (snd (Nat.iter m R (P0, Y0)))).
  split; [exact EG|]. split; [exact Hy|]. split; [exact Hm|]. split; [exact Hl|]. split; [intros Hc; apply isolated_spec in Hc; congruence|]. split; [reflexivity|]. split; [apply infer_class_range|]. split; [exists PP; split; [exact E|reflexivity]|].
  split.
  { unfold sparsified in *. destruct (dl_k sp >=? Z.of_nat nn)%Z.
    - intros i j Hi Hj. rewrite HPP by assumption. rewrite HP0 by assumption. reflexivity.
    - intros i Hi. destruct (HPP i Hi) as (kept & K1 & K2 & K3 & K4 & K7 & K5 & K6). exists kept. split; [exact K1|]. split; [exact K2|]. split; [exact K3|].
      assert (Hmap : map (entry P0 i) kept = map (step_prob nn E0 i) kept) by (apply map_ext_in; intros j Hj; apply HP0; [exact Hi|apply K3, Hj]).
      split; [|split; [rewrite <- Hmap; exact K7|split; [|exact K6]]].
      + intros j m Hj Hmn Hmi Hno. rewrite <- !HP0 by (try assumption; apply K3, Hj). apply K4; assumption.
      + intros j Hj. rewrite K5 by exact Hj. rewrite Hmap, HP0 by (try assumption; apply K3, Hj). reflexivity. }
  split.
  { split; [intros i j Hi Hj; cbn [Nat.iter nat_rect fst]; rewrite HP0 by assumption; reflexivity|]. split; [intros i c Hi Hc; cbn [Nat.iter nat_rect snd]; apply HY0; assumption|].
    intros m. destruct (round_entries nn k PP mask Y0 (dl_alpha sp) (dl_lambda sp) (Nat.iter m R (P0, Y0)) Hm HSY) as (_ & _ & R1 & R2). cbn [Nat.iter nat_rect]. split.
    - intros i c Hi Hc. unfold R at 1. rewrite R1 by assumption. destruct (nth i mask false); [apply HY0; assumption|reflexivity].
    - intros i j Hi Hj. unfold R at 1. rewrite R2 by assumption. reflexivity. }
  split; [apply Hsh|]. split; [intros i c _ _; reflexivity|]. split; [reflexivity|].
  destruct (Z.to_nat (dl_max_iter sp)) as [|m] eqn:Em; [lia|]. split; [lia|]. replace (S m - 1)%nat with m by lia.
  assert (Hn : (0 < n)%Z) by apply (validate_graph_ok _ _ _ _ EG). apply max_diff_largest; try apply Hsh; unfold nn, k; lia.
Qed.
Lemma dynamic_returns n ei weight y mask sp E : validate_graph n ei weight = Ok E -> (forall e, In e E -> 0 <= e_w e) ->
  ((exists d, dynamic_propagation top n ei weight y mask sp = Ok d) <->
   (0 < dl_k sp)%Z /\ 0 <= dl_alpha sp /\ List.length y = Z.to_nat n /\ List.length mask = Z.to_nat n /\ (exists i, nth i mask false = true) /\ ~ has_isolated (Z.to_nat n) E).
Proof using All.
  intros EG Hw. split.
  - intros (d & H). destruct (dynamic_ok _ _ _ _ _ _ _ H) as (H1 & H2 & E' & k & P & T & L & EG' & Hy & Hm & Hl & Hi & _). rewrite EG in EG'. injection EG' as <-. auto 6.
  - intros (H1 & H2 & Hy & Hm & Hl & Hi). unfold dynamic_propagation. replace (dl_k sp <=? 0)%Z with false by lia. apply Qle_bool_iff in H2. rewrite H2. cbn [negb].
    rewrite (proj2 (checked_ok n ei weight y mask E)) by auto. cbn [bind].
    unfold labels_to_onehot. destruct (infer_num_classes y <=? 0)%Z eqn:E1; [unfold infer_num_classes in E1; lia|].
    destruct (existsb (fun v => (v >=? infer_num_classes y)%Z) y) eqn:E2; [apply existsb_exists in E2 as (v & Hv & E2); pose proof (infer_bound y v Hv); lia|]. cbn [bind].
    destruct (isolated (affinity E (Z.to_nat n))) eqn:Ei; [exfalso; apply Hi, isolated_spec, Ei|].
    set (nn := Z.to_nat n) in *. set (P0 := tabulate nn nn (fun i j => entry (affinity E nn) i j / row_sum (affinity E nn) i)).
    assert (HP0 : forall i j, (i < nn)%nat -> (j < nn)%nat -> entry P0 i j = step_prob nn E i j).
    { intros i j Hii Hj. unfold P0. rewrite entry_tabulate by assumption. rewrite affinity_entry, affinity_row by assumption. reflexivity. }
    assert (Hpos : forall i, (i < nn)%nat -> 0 < links nn E i) by (intros i Hii; apply Qnot_le_lt; intros Hc; apply Hi; exists i; auto).
    destruct (knn_matrix_total top Htop nn P0 (dl_k sp) (shape_tabulate _ _ _) H1) as (P & HP).
    + intros i j Hii Hj. rewrite HP0 by assumption. unfold step_prob. apply Qdiv_nonneg; [apply link_nonneg, Hw|apply Hpos, Hii].
    + intros i Hii. assert (Hx : exists j, In j (seq 0 nn) /\ 0 < link E i j).
      { assert (Hs := Hpos i Hii). unfold links in Hs. revert Hs. generalize (seq 0 nn). induction l as [|a l IH]; intros Hs; [cbn in Hs; lra|]. cbn [map] in Hs. rewrite Qsum_cons in Hs.
        destruct (Qlt_le_dec 0 (link E i a)) as [Hlt|Hle]; [exists a; split; [left; reflexivity|exact Hlt]|]. destruct IH as (j & Hj & Hj0); [lra|]. exists j. split; [right; exact Hj|exact Hj0]. }
      destruct Hx as (j & Hj & Hj0). apply in_seq in Hj. exists j. split; [lia|]. split; [intros ->; unfold link in Hj0; rewrite Nat.eqb_refl in Hj0; lra|].
      rewrite HP0 by lia. unfold step_prob. assert (H := Hpos i Hii). apply Qlt_shift_div_l; lra.
    + rewrite HP. cbn [bind]. destruct (dlp_loop _ _ _ _ _ _ _ _ _ _) as [F r]. eauto.
Qed.
End Program.

(* ---- consequences of the run *)
Section Run.
Variables (n k : nat) (P p : nat -> nat -> Q) (y : list Z) (mask : list bool) (alpha lambda : Q) (T L : nat -> nat -> nat -> Q).
Hypothesis HR : dynamic_run n k P p y mask alpha lambda T L.
Lemma run_labelled m i c : (i < n)%nat -> (c < k)%nat -> nth i mask false = true -> L m i c == target y mask i c.
Proof using All. intros Hi Hc Hm. destruct HR as (_ & H0 & HS). destruct m as [|m]; [apply H0; assumption|]. destruct (HS m) as [H _]. rewrite (H i c Hi Hc). cbn beta. rewrite Hm. reflexivity. Qed.
Hypothesis Halpha : 0 <= alpha.
Hypothesis Hlambda : 0 <= lambda.
Hypothesis Hp : forall i j, (i < n)%nat -> (j < n)%nat -> 0 <= p i j.
Hypothesis HP : forall i j, (i < n)%nat -> (j < n)%nat -> 0 <= P i j.
Lemma run_nonneg m : (forall i j, (i < n)%nat -> (j < n)%nat -> 0 <= T m i j) /\ (forall i c, (i < n)%nat -> (c < k)%nat -> 0 <= L m i c).
Proof using All.
  destruct HR as (H0 & H1 & HS). assert (Ht : forall i c, 0 <= target y mask i c) by (intros i c; unfold target; destruct (_ && _); lra). induction m as [|m [IHT IHL]].
  - split; intros i j Hi Hj; [rewrite (H0 i j Hi Hj); auto|rewrite (H1 i j Hi Hj); apply Ht].
  - destruct (HS m) as [HSL HST]. split; intros i j Hi Hj.
    + rewrite (HST i j Hi Hj). assert (Hs : 0 <= square_sum n (fun a b => P i a * (T m a b + alpha * sum_classes k (fun c => L m a c * L m b c)) * P j b)).
      { unfold square_sum. apply Qsum_nonneg. intros x Hx. apply in_map_iff in Hx as (a & <- & Ha). apply in_seq in Ha. apply Qsum_nonneg. intros x Hx. apply in_map_iff in Hx as (b & <- & Hb). apply in_seq in Hb.
        assert (Hsc : 0 <= sum_classes k (fun c => L m a c * L m b c)).
        { unfold sum_classes. apply Qsum_nonneg. intros x Hx. apply in_map_iff in Hx as (c & <- & Hc). apply in_seq in Hc. apply Qmult_le_0_compat; apply IHL; lia. }
        apply Qmult_le_0_compat; [apply Qmult_le_0_compat; [apply HP; lia|]|apply HP; lia]. assert (0 <= T m a b) by (apply IHT; lia). assert (Hmul := Qmult_le_0_compat _ _ Halpha Hsc). lra. }
      cbn beta. destruct (Nat.eqb i j); lra.
    + rewrite (HSL i j Hi Hj). destruct (nth i mask false); [apply Ht|]. apply Qsum_nonneg. intros x Hx. apply in_map_iff in Hx as (a & <- & Ha). apply in_seq in Ha. apply Qmult_le_0_compat; [apply IHT|apply IHL]; lia.
Qed.
End Run.
Lemma sparsified_nonneg n k p P : (forall i j, (i < n)%nat -> (j < n)%nat -> 0 <= p i j) -> sparsified n k p P -> forall i j, (i < n)%nat -> (j < n)%nat -> 0 <= P i j.
Proof.
  intros Hp H i j Hi Hj. unfold sparsified in H. destruct (k >=? Z.of_nat n)%Z; [rewrite H by assumption; auto|]. destruct (H i Hi) as (kept & _ & _ & K3 & _ & _ & K5 & K6).
  destruct (in_dec Nat.eq_dec j kept) as [Hin|Hout]; [|rewrite K6 by assumption; lra]. rewrite K5 by exact Hin. unfold Qdiv. apply Qmult_le_0_compat; [auto|]. apply Qinv_le_0_compat.
  apply Qsum_nonneg. intros x Hx. apply in_map_iff in Hx as (a & <- & Ha). apply Hp; [exact Hi|apply K3, Ha].
Qed.
(* the run only sees the labels shown: classes that are not shown keep score 0, the others do not depend on the number of classes *)
Lemma run_unshown n k P p y mask alpha lambda T L : dynamic_run n k P p y mask alpha lambda T L -> forall c, (c < k)%nat ->
  (forall i, nth i mask false = true -> nth i y (-1)%Z <> Z.of_nat c) -> forall m i, (i < n)%nat -> L m i c == 0.
Proof.
  intros (_ & H1 & HS) c Hc Hno. assert (Ht : forall i, target y mask i c == 0) by (intros i; unfold target; destruct (nth i mask false) eqn:Em; cbn [andb]; [|reflexivity]; specialize (Hno i Em); destruct (Z.eqb_spec (nth i y (-1)%Z) (Z.of_nat c)); [contradiction|reflexivity]).
  induction m as [|m IH]; intros i Hi; [rewrite (H1 i c Hi Hc); apply Ht|]. destruct (HS m) as [HL _]. rewrite (HL i c Hi Hc). cbn beta. destruct (nth i mask false); [apply Ht|]. apply Qsum_zero. intros j Hj. apply in_seq in Hj. rewrite IH by lia. ring.
Qed.
Lemma sum_classes_more k k' f : (k <= k')%nat -> (forall c, (k <= c < k')%nat -> f c == 0) -> sum_classes k' f == sum_classes k f.
Proof.
  intros Hk Hz. unfold sum_classes. replace k' with (k + (k' - k))%nat by lia. rewrite seq_app, map_app, Qsum_app. rewrite (Qsum_zero f (seq (0 + k) (k' - k))); [ring|]. intros c Hc. apply in_seq in Hc. apply Hz. lia.
Qed.
Lemma run_same n k k' P P' p y y' mask alpha lambda T L T' L' : (k <= k')%nat ->
  dynamic_run n k P p y mask alpha lambda T L -> dynamic_run n k' P' p y' mask alpha lambda T' L' ->
  (forall i, nth i mask false = true -> nth i y (-1)%Z = nth i y' (-1)%Z) ->
  (forall i, nth i mask false = true -> (nth i y (-1) < Z.of_nat k)%Z) ->
  (forall i j, (i < n)%nat -> (j < n)%nat -> P i j == P' i j) ->
  forall m, agree n n (T m) (T' m) /\ agree n k (L m) (L' m).
Proof.
  intros Hk HR HR' Hy Hlt HP. assert (Hun : forall m i c, (i < n)%nat -> (k <= c < k')%nat -> L' m i c == 0).
  { intros m i c Hi Hc. apply (run_unshown _ _ _ _ _ _ _ _ _ _ HR'); [lia| |exact Hi]. intros j Hj E. specialize (Hlt j Hj). rewrite (Hy j Hj), E in Hlt. lia. }
  assert (Ht : forall i c, target y mask i c == target y' mask i c) by (intros i c; unfold target; destruct (nth i mask false) eqn:Em; [rewrite (Hy i Em)|]; reflexivity).
  destruct HR as (A0 & A1 & AS). destruct HR' as (B0 & B1 & BS). induction m as [|m [IHT IHL]].
  - split; [intros i j Hi Hj; rewrite (A0 i j Hi Hj), (B0 i j Hi Hj); reflexivity|]. intros i c Hi Hc. rewrite (A1 i c Hi Hc), (B1 i c Hi ltac:(lia)). apply Ht.
  - destruct (AS m) as [AL AT]. destruct (BS m) as [BL BT]. split.
    + intros i j Hi Hj. rewrite (AT i j Hi Hj), (BT i j Hi Hj). apply Qplus_comp; [|reflexivity]. apply square_sum_ext. intros a b Ha Hb. rewrite (HP i a Hi Ha), (HP j b Hj Hb), (IHT a b Ha Hb).
      apply Qmult_comp; [|reflexivity]. apply Qmult_comp; [reflexivity|]. apply Qplus_comp; [reflexivity|]. apply Qmult_comp; [reflexivity|].
      rewrite (sum_classes_more k k' _ Hk); [|intros c Hc; rewrite (Hun m a c Ha Hc); ring]. apply sum_classes_ext. intros c Hc. rewrite (IHL a c Ha Hc), (IHL b c Hb Hc). reflexivity.
    + intros i c Hi Hc. rewrite (AL i c Hi Hc), (BL i c Hi ltac:(lia)). destruct (nth i mask false); [apply Ht|]. apply Qsum_ext. intros j Hj. apply in_seq in Hj. rewrite (IHT i j Hi ltac:(lia)), (IHL j c ltac:(lia) Hc). reflexivity.
Qed.

Lemma dynamic_hidden top n ei weight y y' mask sp d d' : picks_largest top ->
  (forall i, nth i mask false = true -> nth i y (-1)%Z = nth i y' (-1)%Z) -> (infer_num_classes y <= infer_num_classes y')%Z ->
  dynamic_propagation top n ei weight y mask sp = Ok d -> dynamic_propagation top n ei weight y' mask sp = Ok d' ->
  forall i c, (i < Z.to_nat n)%nat ->
    ((c < Z.to_nat (infer_num_classes y))%nat -> entry (d_F d) i c == entry (d_F d') i c) /\
    ((Z.to_nat (infer_num_classes y) <= c < Z.to_nat (infer_num_classes y'))%nat -> entry (d_F d') i c == 0).
Proof.
  intros Htop Hy Hk H H'. destruct (dynamic_ok top Htop _ _ _ _ _ _ _ H) as (_ & _ & E & k & P & T & L & EG & Ly & Lm & _ & _ & -> & HK & (PP & EP & ->) & _ & HR & _ & HF & _).
  destruct (dynamic_ok top Htop _ _ _ _ _ _ _ H') as (_ & _ & E' & k' & P' & T' & L' & EG' & Ly' & _ & _ & _ & -> & HK' & (PP' & EP' & ->) & _ & HR' & _ & HF' & _).
  rewrite EG in EG'. injection EG' as <-. rewrite EP in EP'. injection EP' as <-. intros i c Hi. 
  assert (Hlt : forall i, nth i mask false = true -> (nth i y (-1) < Z.of_nat (Z.to_nat (infer_num_classes y)))%Z).
  { intros j Hj. destruct (Nat.lt_ge_cases j (List.length y)) as [Hl|Hge]; [apply HK, nth_In, Hl|]. rewrite nth_overflow by lia. lia. }
  assert (Hkk : (Z.to_nat (infer_num_classes y) <= Z.to_nat (infer_num_classes y'))%nat) by lia.
  assert (HS := run_same _ _ _ _ _ _ _ _ _ _ _ _ _ _ _ Hkk HR HR' Hy Hlt ltac:(intros; reflexivity) (Z.to_nat (dl_max_iter sp))). split; intros Hc.
  - rewrite (HF i c Hi Hc), (HF' i c Hi ltac:(lia)). apply HS; assumption.
  - rewrite (HF' i c Hi ltac:(lia)). apply (run_unshown _ _ _ _ _ _ _ _ _ _ HR'); [lia| |exact Hi]. intros j Hj Ej. specialize (Hlt j Hj). rewrite (Hy j Hj), Ej in Hlt. lia.
Qed.
