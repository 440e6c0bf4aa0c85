From Coq Require Import List ZArith Lia Bool QArith Qminmax Sorted Lqa String ZifyBool ZifyNat.
From Verif Require Import Prelude ListFacts QFacts KnnModel KnnProofs InductModel InductSpec InductProofs InductLoopProofs EnsembleModel EnsembleSpec ProbaProofs
  SampleServiceProofs SupervisedModel SupervisedSpec.
Import ListNotations.
Open Scope Z_scope.

(* ----- label encoding ----- *)
Lemma searchsorted_nth classes y : StronglySorted Z.lt classes -> In y classes ->
  (searchsorted classes y < List.length classes)%nat /\ nth (searchsorted classes y) classes 0 = y.
Proof.
  unfold searchsorted. induction 1 as [|c cs S IH F]; [intros []|]. intros I. rewrite Forall_forall in F. cbn [filter].
  destruct (Z.ltb_spec c y) as [H|H]; cbn [List.length nth].
  - destruct I as [->|I]; [lia|]. destruct (IH I) as [A B]. split; [lia|exact B].
  - assert (y = c). { destruct I as [->|I]; [reflexivity|]. specialize (F y I). lia. } subst y.
    assert (E : filter (fun c0 => c0 <? c) cs = []).
    { clear - F. induction cs as [|a cs IH]; [reflexivity|]. cbn. pose proof (F a (or_introl eq_refl)). destruct (Z.ltb_spec a c); [lia|].
      apply IH. intros x Hx. apply F. now right. }
    rewrite E. cbn. split; [lia|reflexivity].
Qed.

Lemma uniqueZ_labels y : labels_of y (uniqueZ y).
Proof. split; [apply uniqueZ_ascending|apply uniqueZ_In]. Qed.

Lemma encode_labels_spec y e cs : encode_labels y = (e, cs) -> labels_of y cs /\ List.length e = List.length y /\
  forall i, (i < List.length y)%nat -> (nth i e 0%nat < List.length cs)%nat /\ nth (nth i e 0%nat) cs 0 = nth i y 0.
Proof.
  unfold encode_labels. intros [= <- <-]. split; [apply uniqueZ_labels|]. split; [apply map_length|]. intros i Hi.
  rewrite (nth_indep _ 0%nat (searchsorted (uniqueZ y) 0)) by (rewrite map_length; exact Hi). rewrite map_nth.
  apply searchsorted_nth; [apply uniqueZ_ascending|]. rewrite uniqueZ_In. now apply nth_In.
Qed.

Lemma onehot_row_predicts n i : (i < n)%nat -> exists r, onehot_row n i = Ok r /\ List.length r = n /\ predicts r i /\ (total r == 1)%Q /\
  forall c, (c < n)%nat -> nth c r 0%Q = if Nat.eqb c i then 1%Q else 0%Q.
Proof.
  intros H. unfold onehot_row. destruct (Nat.ltb_spec i n); [|lia]. eexists. split; [reflexivity|].
  set (f := fun c => if Nat.eqb c i then 1%Q else 0%Q).
  assert (L : List.length (map f (seq 0 n)) = n) by now rewrite map_length, seq_length.
  assert (N : forall c, (c < n)%nat -> nth c (map f (seq 0 n)) 0%Q = f c).
  { intros c Hc. rewrite (nth_indep _ 0%Q (f 0%nat)) by lia. rewrite (map_nth f), seq_nth by exact Hc. reflexivity. }
  split; [exact L|]. split; [|split].
  - split; [lia|]. rewrite (N i H). assert (Fi : f i = 1%Q) by (unfold f; now rewrite Nat.eqb_refl). rewrite Fi. split.
    + intros j Hj. rewrite N by lia. unfold f. destruct (Nat.eqb j i); lra.
    + intros j Hj. rewrite N by lia. unfold f. destruct (Nat.eqb_spec j i); [lia|lra].
  - clear - H. assert (G : forall m a, (a <= i < a + m)%nat -> (total (map f (seq a m)) == 1)%Q).
    { induction m as [|m IH]; intros a Ha; [lia|]. unfold total in *. cbn. unfold f at 1. destruct (Nat.eqb_spec a i) as [->|Ne].
      - assert (Z : forall m b, (i < b)%nat -> (fold_right Qplus 0 (map f (seq b m)) == 0)%Q).
        { induction m0 as [|m0 IH0]; intros b Hb; cbn; [reflexivity|]. rewrite IH0 by lia. unfold f. destruct (Nat.eqb_spec b i); [lia|lra]. }
        rewrite Z by lia. lra.
      - rewrite IH by lia. lra. }
    apply G. lia.
  - exact N.
Qed.

Lemma scores_from_predictions_spec classes pred : StronglySorted Z.lt classes -> (forall l, In l pred -> In l classes) ->
  exists S, scores_from_predictions classes pred = Ok S /\ List.length S = List.length pred /\
    forall i, (i < List.length pred)%nat -> exists c, predicts (nth i S []) c /\ nth c classes 0 = nth i pred 0 /\ List.length (nth i S []) = List.length classes /\
      (total (nth i S []) == 1)%Q.
Proof.
  intros So. unfold scores_from_predictions. induction pred as [|l pred IH]; intros H; cbn [map onehot].
  - exists []. split; [reflexivity|]. split; [reflexivity|]. intros i Hi. cbn in Hi. lia.
  - destruct IH as (S & E & L & HS); [intros x Hx; apply H; now right|].
    destruct (searchsorted_nth classes l So (H l (or_introl eq_refl))) as [A B].
    destruct (onehot_row_predicts _ _ A) as (r & Er & Lr & Pr & Tr & _). rewrite Er, E. cbn [bind]. exists (r :: S).
    split; [reflexivity|]. split; [cbn; lia|]. intros [|i] Hi; cbn [nth].
    + exists (searchsorted classes l). auto.
    + apply HS. cbn in Hi. lia.
Qed.

(* ----- add_at ----- *)
Lemma update_length {A} (l : list A) i f : List.length (update l i f) = List.length l.
Proof. revert i. induction l as [|a l IH]; intros [|i]; cbn; auto. Qed.
Lemma update_nth_same {A} (l : list A) i f d : (i < List.length l)%nat -> nth i (update l i f) d = f (nth i l d).
Proof. revert i. induction l as [|a l IH]; intros [|i] H; cbn in *; try lia; auto. apply IH. lia. Qed.
Lemma update_nth_other {A} (l : list A) i j f d : i <> j -> nth j (update l i f) d = nth j l d.
Proof. revert i j. induction l as [|a l IH]; intros [|i] [|j] H; cbn; auto; try congruence. Qed.

Lemma add_at_spec (col : nat -> nat) (w : nat -> Q) : forall N row, (forall i, In i N -> (col i < List.length row)%nat) ->
  List.length (add_at row (map col N) (map w N)) = List.length row /\
  forall c, (c < List.length row)%nat -> (nth c (add_at row (map col N) (map w N)) 0 == nth c row 0 + total (map w (filter (fun i => Nat.eqb (col i) c) N)))%Q.
Proof.
  unfold add_at. induction N as [|i N IH]; intros row H.
  - cbn. split; [reflexivity|]. intros c _. unfold total. cbn. ring.
  - cbn [map combine fold_left fst snd]. set (row' := update row (col i) (fun x => (x + w i)%Q)).
    assert (L : List.length row' = List.length row) by apply update_length.
    destruct (IH row') as [A B]; [intros j Hj; rewrite L; apply H; now right|]. split; [lia|]. intros c Hc.
    rewrite B by lia. cbn [filter]. unfold row'. destruct (Nat.eqb_spec (col i) c) as [E|E].
    + rewrite <- E, update_nth_same by (apply H; now left). cbn [map]. unfold total. cbn [fold_right]. ring.
    + rewrite update_nth_other by exact E. reflexivity.
Qed.

(* ----- the loop over batches touches every row once ----- *)
Lemma fold_flat_map {A B C} (g : C -> B -> C) (h : A -> list B) l : forall c,
  fold_left (fun c a => fold_left g (h a) c) l c = fold_left g (flat_map h l) c.
Proof. induction l as [|a l IH]; intros c; cbn; [reflexivity|]. rewrite fold_left_app. apply IH. Qed.

Lemma fold_update_rows {A} (f : nat -> A -> A) : forall idx (l : list A), NoDup idx -> (forall i, In i idx -> (i < List.length l)%nat) ->
  forall d, let l' := fold_left (fun out i => update out i (f i)) idx l in
  List.length l' = List.length l /\ forall i, nth i l' d = if memN i idx then f i (nth i l d) else nth i l d.
Proof.
  induction idx as [|a idx IH]; intros l N H d; cbn [fold_left].
  - cbn. auto.
  - inversion N as [|? ? Na N']. subst. destruct (IH (update l a (f a)) N') with (d := d) as [A1 A2].
    { intros i Hi. rewrite update_length. apply H. now right. }
    cbv zeta in *. rewrite update_length in A1. split; [exact A1|]. intros i. rewrite A2. unfold memN in *. cbn [existsb].
    destruct (Nat.eqb_spec i a) as [->|Ne]; cbn [orb].
    + assert (existsb (Nat.eqb a) idx = false) as ->.
      { apply existsb_false. intros x Hx. apply Nat.eqb_neq. intros ->. contradiction. }
      apply update_nth_same. apply H. now left.
    + rewrite update_nth_other by congruence. reflexivity.
Qed.

Lemma loop_rows {A} (f : nat -> A -> A) (l : list A) n bs starts d : n = lenZ l -> 0 < bs -> py_range n bs = Ok starts ->
  fold_left (fun out s => fold_left (fun out i => update out (Z.to_nat i) (f (Z.to_nat i))) (arange2 s (Z.min n (s + bs))) out) starts l
  = map (fun i => f i (nth i l d)) (seq 0 (List.length l)).
Proof.
  intros -> Hb Hr. rewrite (fold_flat_map (fun out i => update out (Z.to_nat i) (f (Z.to_nat i)))).
  rewrite (chunks_cover (lenZ l) bs starts) by (unfold lenZ; lia || assumption).
  assert (E : forall idx (l0 : list A), fold_left (fun out i => update out (Z.to_nat i) (f (Z.to_nat i))) idx l0 =
     fold_left (fun out i => update out i (f i)) (map Z.to_nat idx) l0).
  { induction idx as [|a idx IH]; intros l0; cbn; [reflexivity|apply IH]. }
  rewrite E. assert (M : map Z.to_nat (arange (lenZ l)) = seq 0 (List.length l)).
  { unfold arange, lenZ. rewrite Nat2Z.id, map_map. rewrite <- (map_id (seq 0 (List.length l))) at 2. apply map_ext. intros a. apply Nat2Z.id. }
  rewrite M. destruct (fold_update_rows f (seq 0 (List.length l)) l (seq_NoDup _ _)) with (d := d) as [A1 A2].
  { intros i Hi. apply in_seq in Hi. lia. }
  cbv zeta in *. apply nth_ext with (d := d) (d' := f 0%nat (nth 0 l d)).
  - rewrite A1, map_length, seq_length. reflexivity.
  - rewrite A1. intros i Hi. rewrite A2, (map_nth (fun i => f i (nth i l d))), seq_nth by exact Hi.
    assert (memN i (seq 0 (List.length l)) = true) as -> by (apply memN_In, in_seq; lia). reflexivity.
Qed.

(* ----- kNN ----- *)
Section Knn.
Context {X : Type}.
Variables (score : X -> X -> Q) (top : list Q -> nat -> list nat) (d : X).
Variables (w : knn_weights) (m : knn_metric) (eps : Q).
Hypothesis picks : picks_largest top.
Hypothesis eps_pos : (0 < eps)%Q.

Lemma knn_weight_pos s : (0 < knn_weight w m eps s)%Q.
Proof using eps_pos.
  destruct w; cbn; [lra|].
  assert (P : forall x, (0 < Qmax x 0 + eps)%Q). { intros x. pose proof (Q.le_max_r x 0). lra. }
  destruct m; apply Qlt_shift_div_l; try apply P; lra.
Qed.

Lemma knn_fit_ok k (Xt : list X) y st : knn_fit k Xt y = Ok st -> kn_X st = Xt /\ Xt <> [] /\ kn_k st = k /\ 0 < k /\ List.length Xt = List.length y /\
  encode_labels y = (kn_y st, kn_classes st).
Proof using.
  clear score top d w m eps picks eps_pos. unfold knn_fit. intros H. destruct Xt as [|x xs]; [discriminate|]. destruct (encode_labels y) as [e cs] eqn:E.
  destruct (Nat.eqb_spec (List.length (x :: xs)) (List.length e)) as [L|]; cbn [negb] in H; [|discriminate].
  destruct (Z.leb_spec k 0); [discriminate|]. injection H as <-. cbn [kn_X kn_y kn_classes kn_k].
  destruct (encode_labels_spec y e cs E) as (_ & L' & _). split; [reflexivity|]. split; [discriminate|]. split; [reflexivity|]. split; [lia|].
  split; [congruence|reflexivity].
Qed.

Notation row_of st q := (knn_votes score top st w m eps q (map (fun _ => 0%Q) (kn_classes st))).

Lemma knn_proba_rows (st : knn_state (X := X)) bs (Qs : list X) : 0 < bs ->
  knn_proba score top st w m eps bs d Qs = Ok (map (fun q => normalise_row (row_of st q)) Qs).
Proof using.
  intros Hb. unfold knn_proba. unfold py_range. destruct (Z.eqb_spec bs 0); [lia|]. destruct (Z.ltb_spec bs 0); [lia|]. cbn [bind]. f_equal.
  set (starts := map _ (seq 0 _)). set (zeros := map (fun _ => map (fun _ => 0%Q) (kn_classes st)) Qs).
  assert (E : fold_left (fun out s => fold_left (fun out i => update out (Z.to_nat i) (knn_votes score top st w m eps (nth (Z.to_nat i) Qs d)))
      (arange2 s (Z.min (lenZ Qs) (s + bs))) out) starts zeros =
      map (fun i => knn_votes score top st w m eps (nth i Qs d) (nth i zeros (map (fun _ => 0%Q) (kn_classes st)))) (seq 0 (List.length zeros))).
  { apply (loop_rows (fun i => knn_votes score top st w m eps (nth i Qs d)) zeros (lenZ Qs) bs starts).
    - unfold zeros, lenZ. now rewrite map_length.
    - exact Hb.
    - unfold py_range. destruct (Z.eqb_spec bs 0); [lia|]. destruct (Z.ltb_spec bs 0); [lia|]. reflexivity. }
  rewrite E. unfold zeros at 2. rewrite map_length, map_map. rewrite <- (map_nth_seq Qs d) at 2. rewrite map_map. apply map_ext. intros i.
  f_equal. f_equal. unfold zeros. clear. revert i. induction Qs as [|q Qs IH]; intros [|i]; cbn; auto.
Qed.

Lemma knn_row_spec k (Xt : list X) y st q : knn_fit k Xt y = Ok st ->
  exists N, best_scored score Xt d q (Z.to_nat k) N /\ List.length (row_of st q) = List.length (kn_classes st) /\
    (forall g, (g < List.length (kn_classes st))%nat ->
      (nth g (row_of st q) 0 == weight_of_label y (fun i => knn_weight w m eps (score q (nth i Xt d))) N (nth g (kn_classes st) 0%Z))%Q) /\
    (forall x, In x (row_of st q) -> (0 <= x)%Q) /\ (0 < total (row_of st q))%Q.
Proof using picks eps_pos.
  intros H. destruct (knn_fit_ok k Xt y st H) as (EX & NX & Ek & Hk & L & Ee). clear H.
  destruct (encode_labels_spec _ _ _ Ee) as ((So & Cy) & Le & Enc).
  set (scores := map (score q) Xt). set (kk := Z.to_nat (Z.min k (lenZ Xt))).
  assert (Hkk : (kk <= List.length scores)%nat) by (unfold kk, scores, lenZ; rewrite map_length; lia).
  destruct (picks scores kk Hkk) as (P1 & P2 & P3 & P4). unfold scores in P3 at 2. unfold scores in P4 at 2. rewrite map_length in P3, P4.
  assert (Sn : forall i, (i < List.length Xt)%nat -> nth i scores 0%Q = score q (nth i Xt d)).
  { intros i Hi. unfold scores. rewrite (nth_indep _ 0%Q (score q d)) by (rewrite map_length; exact Hi). apply map_nth. }
  set (N := top scores kk) in *. exists N.
  set (zero := map (fun _ : Z => 0%Q) (kn_classes st)).
  assert (Lz : List.length zero = List.length (kn_classes st)) by apply map_length.
  set (col := fun i => nth i (kn_y st) 0%nat). set (wt := fun i => knn_weight w m eps (nth i scores 0%Q)).
  assert (Er : knn_votes score top st w m eps q zero = add_at zero (map col N) (map wt N)).
  { unfold knn_votes. rewrite EX, Ek. reflexivity. }
  rewrite Er. destruct (add_at_spec col wt N zero) as [A1 A2].
  { intros i Hi. rewrite Lz. unfold col. apply Enc. rewrite <- L. now apply P3. }
  assert (Kn : kk = Nat.min (Z.to_nat k) (List.length Xt)) by (unfold kk, lenZ; lia).
  assert (V : forall g, (g < List.length (kn_classes st))%nat ->
      (nth g (add_at zero (map col N) (map wt N)) 0 == weight_of_label y (fun i => knn_weight w m eps (score q (nth i Xt d))) N (nth g (kn_classes st) 0%Z))%Q).
  { intros g Hg. rewrite A2 by lia. assert (Z0 : nth g zero 0%Q = 0%Q).
    { unfold zero. clear. revert g. induction (kn_classes st); intros [|g]; cbn; auto. }
    rewrite Z0, Qplus_0_l. unfold weight_of_label.
    assert (F : filter (fun i => Nat.eqb (col i) g) N = filter (fun i => if Z.eq_dec (nth i y 0) (nth g (kn_classes st) 0) then true else false) N).
    { apply filter_ext_in. intros i Hi. assert (Hi' : (i < List.length y)%nat) by (rewrite <- L; now apply P3). destruct (Enc i Hi') as [E1 E2]. fold (col i) in E1, E2.
      destruct (Z.eq_dec (nth i y 0) (nth g (kn_classes st) 0)) as [E|E].
      - apply Nat.eqb_eq. apply (proj1 (NoDup_nth (kn_classes st) 0) (sortedZ_NoDup _ So)); auto. congruence.
      - apply Nat.eqb_neq. intros G. rewrite G in E2. congruence. }
    rewrite F. assert (EM : map wt (filter (fun i => if Z.eq_dec (nth i y 0) (nth g (kn_classes st) 0) then true else false) N) =
      map (fun i => knn_weight w m eps (score q (nth i Xt d))) (filter (fun i => if Z.eq_dec (nth i y 0) (nth g (kn_classes st) 0) then true else false) N)).
    { apply map_ext_in. intros i Hi. apply filter_In in Hi. unfold wt. rewrite Sn by (apply P3, Hi). reflexivity. }
    rewrite EM. reflexivity. }
  assert (NNg : forall g, (g < List.length (kn_classes st))%nat -> (0 <= nth g (add_at zero (map col N) (map wt N)) 0)%Q).
  { intros g Hg. rewrite (V g Hg). unfold weight_of_label. apply Qsum_nonneg. intros x Hx. apply in_map_iff in Hx. destruct Hx as (i & <- & _).
    apply Qlt_le_weak, knn_weight_pos. }
  assert (NN : forall x, In x (add_at zero (map col N) (map wt N)) -> (0 <= x)%Q).
  { intros x Hx. apply (In_nth _ _ 0%Q) in Hx. destruct Hx as (g & Hg & <-). apply NNg. lia. }
  split; [|split; [lia|split; [exact V|split; [exact NN|]]]].
  - split; [exact P2|]. split; [rewrite P1; exact Kn|]. split; [exact P3|].
    intros i j Hi Hj Hn. rewrite <- (Sn j Hj), <- (Sn i (P3 i Hi)). apply P4; auto.
  - (* at least one neighbour, whose column is positive *)
    assert (exists i, In i N) as (i & Hi).
    { destruct N as [|i N'] eqn:EN; [exfalso|exists i; now left]. cbn in P1. destruct Xt; [congruence|]. cbn in Kn. lia. }
    assert (Hi' : (i < List.length y)%nat) by (rewrite <- L; now apply P3). destruct (Enc i Hi') as [E1 E2]. fold (col i) in E1.
    assert (Pos : (0 < nth (col i) (add_at zero (map col N) (map wt N)) 0)%Q).
    { rewrite A2 by lia. assert (Z0 : nth (col i) zero 0%Q = 0%Q).
      { unfold zero. clear. generalize (col i). induction (kn_classes st); intros [|g]; cbn; auto. }
      rewrite Z0, Qplus_0_l. assert (G : forall l, In i l -> (0 < total (map wt (filter (fun j => Nat.eqb (col j) (col i)) l)))%Q).
      { induction l as [|a l IH]; intros I; [destruct I|]. cbn [filter].
        assert (T : (0 <= total (map wt (filter (fun j => Nat.eqb (col j) (col i)) l)))%Q).
        { apply Qsum_nonneg. intros x Hx. apply in_map_iff in Hx. destruct Hx as (j & <- & _). apply Qlt_le_weak, knn_weight_pos. }
        pose proof (knn_weight_pos (nth a scores 0%Q)) as PW. fold (wt a) in PW.
        destruct I as [->|I]; [rewrite Nat.eqb_refl; unfold total in *; cbn [map fold_right]; lra|]. specialize (IH I).
        destruct (Nat.eqb (col a) (col i)); [unfold total in *; cbn [map fold_right]; lra|exact IH]. }
      apply G, Hi. }
    assert (G : forall l g, (forall x, In x l -> (0 <= x)%Q) -> (0 < nth g l 0)%Q -> (0 < total l)%Q).
    { clear. induction l as [|x l IH]; intros [|g] H P; cbn in P; try lra.
      - assert (0 <= total l)%Q by (apply Qsum_nonneg; intros y Hy; apply H; now right). unfold total in *. cbn. lra.
      - specialize (IH g (fun y Hy => H y (or_intror Hy)) P). pose proof (H x (or_introl eq_refl)). unfold total in *. cbn. lra. }
    apply (G _ (col i)); assumption.
Qed.

Lemma knn_proba_spec k (Xt : list X) y st bs Qs : knn_fit k Xt y = Ok st -> 0 < bs ->
  exists P cs, knn_proba score top st w m eps bs d Qs = Ok P /\ List.length P = List.length Qs /\ labels_of y cs /\
    forall i, (i < List.length Qs)%nat -> exists N s, best_scored score Xt d (nth i Qs d) (Z.to_nat k) N /\
      List.length s = List.length cs /\
      (forall g, (g < List.length cs)%nat -> (nth g s 0 == weight_of_label y (fun i' => knn_weight w m eps (score (nth i Qs d) (nth i' Xt d))) N (nth g cs 0%Z))%Q) /\
      distribution_of s (nth i P []).
Proof using picks eps_pos.
  intros H Hb. exists (map (fun q => normalise_row (row_of st q)) Qs), (kn_classes st).
  split; [now apply knn_proba_rows|]. split; [apply map_length|]. destruct (knn_fit_ok k Xt y st H) as (_ & _ & _ & _ & _ & Ee).
  destruct (encode_labels_spec _ _ _ Ee) as (La & _ & _). split; [exact La|].
  intros i Hi. destruct (knn_row_spec k Xt y st (nth i Qs d) H) as (N & BN & L & V & NN & P).
  exists N, (row_of st (nth i Qs d)). split; [exact BN|]. split; [exact L|]. split; [exact V|].
  rewrite (nth_indep _ [] ((fun q => normalise_row (row_of st q)) d)) by (rewrite map_length; exact Hi). rewrite (map_nth (fun q => normalise_row (row_of st q))).
  now apply normalise_distribution.
Qed.

Lemma knn_predict_spec k (Xt : list X) y st bs Qs : knn_fit k Xt y = Ok st -> 0 < bs ->
  exists Y cs, knn_predict score top st w m eps bs d Qs = Ok Y /\ List.length Y = List.length Qs /\ labels_of y cs /\
    forall i, (i < List.length Qs)%nat -> exists N s g, best_scored score Xt d (nth i Qs d) (Z.to_nat k) N /\
      List.length s = List.length cs /\
      (forall g, (g < List.length cs)%nat -> (nth g s 0 == weight_of_label y (fun i' => knn_weight w m eps (score (nth i Qs d) (nth i' Xt d))) N (nth g cs 0%Z))%Q) /\
      predicts s g /\ nth i Y 0 = nth g cs 0 /\ In (nth i Y 0) y.
Proof using picks eps_pos.
  intros H Hb. unfold knn_predict. rewrite knn_proba_rows by exact Hb. cbn [bind]. rewrite map_map.
  destruct (knn_fit_ok k Xt y st H) as (_ & _ & _ & _ & _ & Ee). destruct (encode_labels_spec _ _ _ Ee) as (La & _ & _).
  assert (A : forall q, predicts (row_of st q) (argmax (normalise_row (row_of st q))) /\ (argmax (normalise_row (row_of st q)) < List.length (kn_classes st))%nat).
  { intros q. destruct (knn_row_spec k Xt y st q H) as (N & BN & L & V & NN & P).
    pose proof (normalise_distribution _ NN P) as D. pose proof (argmax_predicts _ (distribution_nonempty _ _ D)) as AM.
    apply (distribution_predicts _ _ _ P D) in AM. split; [exact AM|]. rewrite <- L. apply AM. }
  exists (map (fun q => nth (argmax (normalise_row (row_of st q))) (kn_classes st) 0) Qs), (kn_classes st).
  split; [|split; [apply map_length|split; [exact La|]]].
  - rewrite look_up_ok; [now rewrite map_map|]. intros i Hi. apply in_map_iff in Hi. destruct Hi as (q & <- & _). apply A.
  - intros i Hi. destruct (knn_row_spec k Xt y st (nth i Qs d) H) as (N & BN & L & V & NN & P).
    set (G := fun q => nth (argmax (normalise_row (row_of st q))) (kn_classes st) 0).
    assert (Ey : nth i (map G Qs) 0 = G (nth i Qs d)).
    { rewrite (nth_indep _ 0 (G d)) by (rewrite map_length; exact Hi). apply map_nth. }
    rewrite Ey. unfold G. exists N, (row_of st (nth i Qs d)), (argmax (normalise_row (row_of st (nth i Qs d)))).
    split; [exact BN|]. split; [exact L|]. split; [exact V|]. split; [apply A|]. split; [reflexivity|]. apply La. apply nth_In, A.
Qed.
End Knn.

(* ----- create_classifier ----- *)
Lemma find_first {A} (f : A -> bool) l b : find f l = Some b <-> first_such (fun a => f a = true) l b.
Proof.
  unfold first_such. induction l as [|a l IH]; cbn [find].
  - split; [discriminate|]. intros (l1 & l2 & E & _). destruct l1; discriminate.
  - destruct (f a) eqn:Fa.
    + split.
      * intros [= ->]. exists [], l. split; [reflexivity|]. split; [exact Fa|]. intros x [].
      * intros (l1 & l2 & E & Fb & H). destruct l1 as [|x l1]; cbn in E; injection E as -> ->; [reflexivity|].
        exfalso. apply (H x); [now left|exact Fa].
    + rewrite IH. split.
      * intros (l1 & l2 & -> & Fb & H). exists (a :: l1), l2. split; [reflexivity|]. split; [exact Fb|]. intros x [<-|Hx]; [congruence|now apply H].
      * intros (l1 & l2 & E & Fb & H). destruct l1 as [|x l1]; cbn in E; injection E as -> ->; [congruence|].
        exists l1, l2. split; [reflexivity|]. split; [exact Fb|]. intros z Hz. apply H. now right.
Qed.

Lemma lookup_has k (ps : list (string * Z)) : has_param k ps = match lookup k ps with Some _ => true | None => false end.
Proof.
  unfold has_param, lookup. induction ps as [|[a v] ps IH]; cbn; [reflexivity|]. destruct (String.eqb a k); cbn; auto.
Qed.

Lemma lookup_app k (ps : list (string * Z)) a v : lookup k (ps ++ [(a, v)]) =
  match lookup k ps with Some x => Some x | None => if String.eqb a k then Some v else None end.
Proof.
  unfold lookup. induction ps as [|[b u] ps IH]; cbn.
  - destruct (String.eqb a k); reflexivity.
  - destruct (String.eqb b k); cbn; auto.
Qed.

Lemma create_params params seed n_jobs :
  let p1 := match seed with Some v => if has_param "seed" params then params else params ++ [("seed"%string, v)] | None => params end in
  let p2 := match n_jobs with Some v => if has_param "n_jobs" p1 then p1 else p1 ++ [("n_jobs"%string, v)] | None => p1 end in
  completes (fun k => lookup k params) (fun k => lookup k p2) seed n_jobs.
Proof.
  intros p1 p2 k.
  assert (E1 : lookup k p1 = match lookup k params with Some v => Some v | None => if string_dec k "seed" then seed else None end).
  { unfold p1. destruct seed as [v|].
    - rewrite lookup_has. destruct (lookup "seed" params) eqn:L.
      + destruct (lookup k params) eqn:L2; [reflexivity|]. destruct (string_dec k "seed"); [congruence|reflexivity].
      + rewrite lookup_app. destruct (lookup k params); [reflexivity|]. destruct (String.eqb_spec "seed" k); destruct (string_dec k "seed"); congruence.
    - destruct (lookup k params); [reflexivity|]. destruct (string_dec k "seed"); reflexivity. }
  assert (E2 : lookup k p2 = match lookup k p1 with Some v => Some v | None => if string_dec k "n_jobs" then n_jobs else None end).
  { clearbody p1. clear E1. unfold p2. destruct n_jobs as [v|].
    - rewrite lookup_has. destruct (lookup "n_jobs" p1) eqn:L.
      + destruct (lookup k p1) eqn:L2; [reflexivity|]. destruct (string_dec k "n_jobs"); [congruence|reflexivity].
      + rewrite lookup_app. destruct (lookup k p1); [reflexivity|]. destruct (String.eqb_spec "n_jobs" k); destruct (string_dec k "n_jobs"); congruence.
    - destruct (lookup k p1); [reflexivity|]. destruct (string_dec k "n_jobs"); reflexivity. }
  rewrite E2, E1. destruct (lookup k params); [reflexivity|]. destruct (string_dec k "seed") as [->|]; [|reflexivity].
  destruct seed; [reflexivity|]. destruct (string_dec "seed" "n_jobs"); [discriminate|reflexivity].
Qed.
