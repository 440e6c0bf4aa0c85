(* Proofs about the neighbour-graph backends. *)
From Coq Require Import ZifyBool ZifyNat String Ascii.
From Verif Require Import Prelude ListFacts FsModel FsFacts DecString GraphOpsModel KnnModel KnnSpec
  SampleServiceProofs DatasetCacheProofs.
Local Open Scope Z_scope.
Local Open Scope list_scope.

(* ---------------------------------------------------------------------------- list facts *)
Lemma arange2_In a b x : In x (arange2 a b) <-> a <= x < b.
Proof.
  unfold arange2. rewrite in_map_iff. split.
  - intros [k [<- H]]. apply in_seq in H. lia.
  - intros H. exists (Z.to_nat (x - a)). split; [lia|]. apply in_seq. lia.
Qed.
Lemma arange_arange2 n : arange n = arange2 0 n.
Proof. unfold arange, arange2. rewrite Z.sub_0_r. apply map_ext. intros; lia. Qed.
Lemma arange2_app a b c : a <= b <= c -> arange2 a c = arange2 a b ++ arange2 b c.
Proof.
  intros H. unfold arange2.
  replace (Z.to_nat (c - a)) with (Z.to_nat (b - a) + Z.to_nat (c - b))%nat by lia.
  rewrite seq_app, map_app. f_equal. rewrite Nat.add_0_l.
  generalize (Z.to_nat (c - b)) as m. intros m.
  rewrite <- (map_id (seq 0 m)) at 1.
  assert (E : forall s, seq s m = map (fun k => (s + k)%nat) (seq 0 m)).
  { clear. revert m. intros m. induction m as [|m IH] using nat_ind; intros s; [reflexivity|].
    rewrite !seq_S, map_app, <- IH. reflexivity. }
  rewrite (E (Z.to_nat (b - a))), map_map, map_id. apply map_ext. intros k. lia.
Qed.
Lemma arange2_nil a b : b <= a -> arange2 a b = [].
Proof. intros H. unfold arange2. replace (Z.to_nat (b - a)) with 0%nat by lia. reflexivity. Qed.

Lemma flat_map_app' {A B} (f : A -> list B) l m : flat_map f (l ++ m) = flat_map f l ++ flat_map f m.
Proof. induction l as [|x l IH]; cbn; [reflexivity|]. rewrite IH, app_assoc. reflexivity. Qed.
Lemma flat_map_flat_map {A B C} (f : B -> list C) (g : A -> list B) l :
  flat_map f (flat_map g l) = flat_map (fun x => flat_map f (g x)) l.
Proof. induction l as [|x l IH]; cbn; [reflexivity|]. rewrite flat_map_app', IH. reflexivity. Qed.
Lemma flat_map_ext_in {A B} (f g : A -> list B) l : (forall x, In x l -> f x = g x) -> flat_map f l = flat_map g l.
Proof.
  induction l as [|x l IH]; cbn; intros H; [reflexivity|].
  rewrite H, IH; auto.
Qed.

(* the chunks cover the rows exactly *)
Lemma chunks_cover n c l : 0 <= n -> 0 < c -> py_range n c = Ok l ->
  flat_map (fun s => arange2 s (Z.min n (s + c))) l = arange n.
Proof.
  intros Hn Hc H. unfold py_range in H.
  replace (c =? 0) with false in H by lia. replace (c <? 0) with false in H by lia. injection H as <-.
  assert (Hm : forall m, flat_map (fun s => arange2 s (Z.min n (s + c))) (map (fun k => Z.of_nat k * c) (seq 0 m))
                        = arange2 0 (Z.min n (Z.of_nat m * c))).
  { induction m as [|m IH]; [cbn; rewrite arange2_nil by lia; reflexivity|].
    rewrite seq_S, map_app, flat_map_app', IH. cbn [map flat_map Nat.add]. rewrite app_nil_r.
    replace (Z.of_nat m * c + c) with (Z.of_nat (S m) * c) by lia.
    destruct (Z.leb_spec (Z.of_nat m * c) n) as [Hle|Hgt].
    - rewrite (Z.min_r n (Z.of_nat m * c)) by lia. rewrite <- arange2_app; [reflexivity|lia].
    - rewrite (arange2_nil (Z.of_nat m * c)) by lia. rewrite app_nil_r. f_equal. lia. }
  rewrite Hm, arange_arange2. f_equal.
  pose proof (Z.div_mod (n + c - 1) c ltac:(lia)) as E. pose proof (Z.mod_pos_bound (n + c - 1) c Hc) as B.
  assert (0 <= (n + c - 1) / c) by (apply Z.div_pos; lia).
  rewrite Z2Nat.id by lia. nia.
Qed.

Lemma py_range_total n c : 0 < c -> exists l, py_range n c = Ok l.
Proof.
  intros H. unfold py_range. replace (c =? 0) with false by lia. replace (c <? 0) with false by lia. eauto.
Qed.

(* selecting by a permutation of the positions permutes the list *)
Lemma nth_perm {A} (l : list A) (order : list Z) d :
  Permutation order (arange (lenZ l)) -> Permutation (map (fun o => nthZ l o d) order) l.
Proof.
  intros H. transitivity (map (fun o => nthZ l o d) (arange (lenZ l))).
  - apply Permutation_map, H.
  - unfold arange, lenZ, nthZ. rewrite map_map, Nat2Z.id.
    assert (E : map (fun x => nth (Z.to_nat (Z.of_nat x)) l d) (seq 0 (List.length l)) = l).
    { transitivity (map (fun x => nth x l d) (seq 0 (List.length l))).
      - apply map_ext. intros x. rewrite Nat2Z.id. reflexivity.
      - apply map_nth_seq. }
    rewrite E. reflexivity.
Qed.

Lemma nthZ_arange {A} (f : Z -> A) n i d : 0 <= i < n -> nthZ (map f (arange n)) i d = f i.
Proof.
  intros H. unfold nthZ, arange. rewrite map_map.
  rewrite nth_indep with (d' := f (Z.of_nat 0)) by (rewrite map_length, seq_length; lia).
  change (f (Z.of_nat 0)) with ((fun k => f (Z.of_nat k)) 0%nat).
  rewrite (map_nth (fun k => f (Z.of_nat k)) (seq 0 (Z.to_nat n)) 0%nat).
  rewrite seq_nth by lia. f_equal. lia.
Qed.

Lemma nthZ_map {A B} (f : A -> B) l i da db : 0 <= i < lenZ l -> nthZ (map f l) i db = f (nthZ l i da).
Proof.
  intros H. unfold nthZ, lenZ in *. rewrite nth_indep with (d' := f da) by (rewrite map_length; lia).
  apply map_nth.
Qed.

(* filtering the rows of one source out of all rows *)
Lemma rows_of_source {P} (row : Z -> list (edge * P)) l i :
  (forall x p, In p (row x) -> fst (fst p) = x) -> NoDup l -> In i l ->
  filter (fun p : edge * P => fst (fst p) =? i) (flat_map row l) = row i.
Proof.
  intros Hsrc Hnd Hi.
  assert (Hid : filter (fun p : edge * P => fst (fst p) =? i) (row i) = row i).
  { assert (Ha : forall p, In p (row i) -> fst (fst p) = i) by (intros; apply Hsrc; assumption).
    induction (row i) as [|p r IH]; [reflexivity|]. cbn. rewrite (Ha p (or_introl eq_refl)), Z.eqb_refl.
    f_equal. apply IH. intros q Hq. apply Ha. right; exact Hq. }
  assert (Hno : forall l', ~ In i l' -> filter (fun p : edge * P => fst (fst p) =? i) (flat_map row l') = []).
  { induction l' as [|x l' IH]; intros Hn; [reflexivity|]. cbn. rewrite filter_app, IH by (intros H; apply Hn; right; exact H).
    rewrite app_nil_r. assert (Hx : x <> i) by (intros ->; apply Hn; left; reflexivity).
    assert (Ha : forall p, In p (row x) -> fst (fst p) = x) by (intros; apply Hsrc; assumption).
    induction (row x) as [|p r IH2]; [reflexivity|]. cbn.
    rewrite (Ha p (or_introl eq_refl)). replace (x =? i) with false by lia. apply IH2.
    intros q Hq. apply Ha. right; exact Hq. }
  induction l as [|x l IH]; [destruct Hi|]. inversion Hnd as [|? ? Hn Hnd']; subst. cbn. rewrite filter_app.
  destruct (Z.eq_dec x i) as [->|Hx].
  - rewrite Hid, Hno by exact Hn. apply app_nil_r.
  - destruct Hi as [->|Hi]; [contradiction|]. rewrite IH by assumption.
    assert (E : filter (fun p : edge * P => fst (fst p) =? i) (row x) = []).
    { pose proof (Hno [x]) as E. cbn in E. rewrite app_nil_r in E. apply E. intros [->|[]]. contradiction. }
    rewrite E. reflexivity.
Qed.

(* ---------------------------------------------------------------------------------- numpy *)
Section Numpy.
Variable part : list dist -> Z -> list Z.
Variable argsort : list dist -> list Z.
Variable val : Z -> Z.
Variable D : Z -> Z -> dist.
Hypothesis Hpart : part_ok part.
Hypothesis Hsort : argsort_ok argsort.

Lemma row_of_length n b i : 0 <= n -> lenZ (row_of D n b i) = n.
Proof. intros H. unfold lenZ, row_of. rewrite map_length, arange_length. lia. Qed.
Lemma row_of_nth n b i j : 0 <= j < n ->
  nthZ (row_of D n b i) j None = if negb b && (i =? j) then None else D i j.
Proof. intros H. unfold row_of. apply (nthZ_arange (fun j => if negb b && (i =? j) then None else D i j)). exact H. Qed.

(* the neighbour positions of one row, in output order *)
Definition chosen n k b i : list Z :=
  let idx := part (row_of D n b i) (k_eff n k b) in
  map (fun o => nthZ idx o 0)
      (argsort (map (fun j => option_map val (nthZ (row_of D n b i) j None)) idx)).

Definition emit (b : bool) (i : Z) (j : Z) (d : dist) : list (edge * Z) :=
  match d with
  | Some d => if b || negb (i =? j) then [((i, j), d)] else []
  | None => []
  end.

Lemma knn_row_eq n k b i :
  knn_row part argsort val D n k b i =
  flat_map (fun j => emit b i j (option_map val (nthZ (row_of D n b i) j None))) (chosen n k b i).
Proof.
  unfold knn_row, chosen. set (row := row_of D n b i). set (idx := part row (k_eff n k b)).
  set (ds := map (fun j => option_map val (nthZ row j None)) idx).
  pose proof (proj1 (Hsort ds)) as Hp.
  assert (Hr : Forall (fun o => 0 <= o < lenZ idx) (argsort ds)).
  { apply Forall_forall. intros o Ho. apply (Permutation_in _ Hp) in Ho. apply arange_In in Ho.
    unfold ds, lenZ in *. rewrite map_length in Ho. exact Ho. }
  clear Hp. induction Hr as [|o r Ho _ IH]; [reflexivity|]. cbn [map combine flat_map fst snd].
  fold ds in IH. rewrite IH. f_equal. unfold emit.
  unfold ds. rewrite (nthZ_map _ idx o 0 None Ho). reflexivity.
Qed.

Lemma k_eff_le n k b : 0 <= n -> k_eff n k b <= n.
Proof. intros. unfold k_eff. destruct b; lia. Qed.

Lemma chosen_perm n k b i : Permutation (chosen n k b i) (part (row_of D n b i) (k_eff n k b)).
Proof.
  unfold chosen. apply nth_perm. set (idx := part _ _).
  pose proof (proj1 (Hsort (map (fun j => option_map val (nthZ (row_of D n b i) j None)) idx))) as H.
  unfold lenZ in *. rewrite map_length in H. exact H.
Qed.
Lemma chosen_facts n k b i : 0 <= n -> 0 < k_eff n k b ->
  NoDup (chosen n k b i) /\ lenZ (chosen n k b i) = k_eff n k b /\
  (forall j, In j (chosen n k b i) -> 0 <= j < n) /\
  (forall j j', In j (chosen n k b i) -> 0 <= j' < n -> ~ In j' (chosen n k b i) ->
     dist_leb (nthZ (row_of D n b i) j None) (nthZ (row_of D n b i) j' None) = true).
Proof.
  intros Hn Hk. pose proof (k_eff_le n k b Hn) as Hle. pose proof (row_of_length n b i Hn) as Hl.
  destruct (Hpart (row_of D n b i) (k_eff n k b)) as (H1 & H2 & H3 & H4); [lia|].
  pose proof (chosen_perm n k b i) as P. rewrite Hl in *.
  split; [eapply Permutation_NoDup; [symmetry; exact P|exact H1]|].
  split; [unfold lenZ in *; rewrite (Permutation_length P); exact H2|].
  split; [intros j Hj; apply H3, (Permutation_in _ P), Hj|].
  intros j j' Hj Hj' Hn'. apply H4; [apply (Permutation_in _ P), Hj|exact Hj'|].
  intros H. apply Hn', (Permutation_in _ (Permutation_sym P)), H.
Qed.

(* output order is by distance *)
Lemma chosen_sorted n k b i : 0 <= n -> 0 < k_eff n k b ->
  StronglySorted (fun x y => dist_leb (option_map val (nthZ (row_of D n b i) x None))
                               (option_map val (nthZ (row_of D n b i) y None)) = true) (chosen n k b i).
Proof.
  intros Hn Hk. unfold chosen. set (row := row_of D n b i). set (idx := part row (k_eff n k b)).
  set (ds := map (fun j => option_map val (nthZ row j None)) idx).
  destruct (Hsort ds) as [Hp Hs].
  assert (Hr : Forall (fun o => 0 <= o < lenZ idx) (argsort ds)).
  { apply Forall_forall. intros o Ho. apply (Permutation_in _ Hp) in Ho. apply arange_In in Ho.
    unfold ds, lenZ in *. rewrite map_length in Ho. exact Ho. }
  clear Hp. revert Hr. induction Hs as [|o r Hs IH Hall]; intros Hr; cbn; [constructor|].
  inversion Hr as [|? ? Ho Hr']; subst. constructor; [apply IH; exact Hr'|].
  rewrite Forall_forall in *. intros y Hy. apply in_map_iff in Hy. destruct Hy as [o' [<- Ho']].
  specialize (Hall o' Ho'). unfold ds in Hall.
  rewrite (nthZ_map _ idx o 0 None Ho), (nthZ_map _ idx o' 0 None (Hr' o' Ho')) in Hall. exact Hall.
Qed.

Lemma knn_row_src n k b i p : In p (knn_row part argsort val D n k b i) -> fst (fst p) = i.
Proof.
  rewrite knn_row_eq. intros H. apply in_flat_map in H. destruct H as [j [_ H]].
  unfold emit in H. destruct (option_map _ _); [|destruct H]. destruct (_ || _); [|destruct H].
  destruct H as [<-|[]]. reflexivity.
Qed.

Lemma knn_numpy_eq n k b c l : 0 <= n -> 0 < c ->
  knn_numpy part argsort val D n k b c = Ok l ->
  l = if k_eff n k b <=? 0 then [] else flat_map (knn_row part argsort val D n k b) (arange n).
Proof.
  intros Hn Hc H. unfold knn_numpy in H. destruct (n =? 0) eqn:En.
  - injection H as <-. assert (n = 0) by lia. subst n. destruct (k_eff 0 k b <=? 0); reflexivity.
  - destruct (k_eff n k b <=? 0); [congruence|]. inv_bind H. injection H as <-.
    match goal with E : py_range _ _ = Ok ?s |- _ => pose proof (chunks_cover n c s Hn Hc E) as Hcov end.
    rewrite <- Hcov, flat_map_flat_map. reflexivity.
Qed.
Lemma knn_numpy_total n k b c : 0 <= n -> 0 < c -> exists l, knn_numpy part argsort val D n k b c = Ok l.
Proof.
  intros Hn Hc. unfold knn_numpy. destruct (n =? 0); [eauto|]. destruct (k_eff n k b <=? 0); [eauto|].
  destruct (py_range_total n c Hc) as [l ->]. cbn. eauto.
Qed.

Lemma source_rows n k b i l : 0 <= i < n -> 0 < k_eff n k b ->
  l = flat_map (knn_row part argsort val D n k b) (arange n) ->
  filter (fun p : edge * Z => fst (fst p) =? i) l = knn_row part argsort val D n k b i.
Proof.
  intros Hi Hk ->. apply rows_of_source.
  - intros x p. apply knn_row_src.
  - apply arange_NoDup.
  - apply arange_In. exact Hi.
Qed.

(* whatever the distances are *)
Lemma knn_row_any n k b i : 0 <= i < n -> 0 < k_eff n k b ->
  let r := knn_row part argsort val D n k b i in
  NoDup (map (fun p : edge * Z => snd (fst p)) r) /\ lenZ r <= k_eff n k b /\
  (forall j d, In ((i, j), d) r -> eligible n b i j /\ exists x, D i j = Some x /\ d = val x) /\
  StronglySorted Z.le (map snd r).
Proof.
  intros Hi Hk r. assert (Hn : 0 <= n) by lia.
  destruct (chosen_facts n k b i Hn Hk) as (Hnd & Hlen & Hr & _).
  pose proof (chosen_sorted n k b i Hn Hk) as Hs.
  assert (Hin : forall l j d, In ((i, j), d) (flat_map (fun j => emit b i j (option_map val (nthZ (row_of D n b i) j None))) l) ->
           In j l /\ (b = true \/ j <> i) /\ option_map val (nthZ (row_of D n b i) j None) = Some d).
  { intros l j d H. apply in_flat_map in H. destruct H as [j' [Hj H]]. unfold emit in H.
    destruct (option_map val (nthZ (row_of D n b i) j' None)) as [d'|] eqn:E; [|destruct H].
    destruct (b || negb (i =? j')) eqn:Eb; [|destruct H]. destruct H as [H|[]]. inversion H; subst.
    split; [exact Hj|]. split; [|exact E]. destruct b; [left; reflexivity|right; cbn in Eb; lia]. }
  unfold r. rewrite knn_row_eq. split; [|split; [|split]].
  - clear Hs Hlen Hr. revert Hnd. generalize (chosen n k b i) as l.
    induction l as [|j l IH]; cbn; intros Hnd; [constructor|]. inversion Hnd as [|? ? Hj Hnd']; subst.
    rewrite map_app. unfold emit at 1.
    destruct (option_map val (nthZ (row_of D n b i) j None)); [|apply IH, Hnd'].
    destruct (b || negb (i =? j)); [|apply IH, Hnd']. cbn. constructor; [|apply IH, Hnd'].
    intros H. apply in_map_iff in H. destruct H as [[[i' j'] d'] [Ej H]]. cbn in Ej; subst j'.
    assert (i' = i).
    { apply in_flat_map in H. destruct H as [j' [_ H]]. unfold emit in H.
      destruct (option_map _ _); [|destruct H]. destruct (_ || _); [|destruct H].
      destruct H as [H|[]]. inversion H; reflexivity. }
    subst i'. apply Hin in H. tauto.
  - rewrite <- Hlen. clear. unfold lenZ. induction (chosen n k b i) as [|j l IH]; cbn; [lia|].
    rewrite app_length. unfold emit at 1. destruct (option_map _ _); cbn; [destruct (_ || _); cbn|]; lia.
  - intros j d H. apply Hin in H. destruct H as (Hj & Hb & Hd). pose proof (Hr j Hj) as Hrj.
    split; [split; assumption|]. rewrite row_of_nth in Hd by exact Hrj.
    destruct (negb b && (i =? j)); [discriminate|]. destruct (D i j) as [x|]; [|discriminate].
    injection Hd as <-. eauto.
  - clear Hnd Hlen Hr Hin. induction Hs as [|j l Hs IH Hall]; cbn; [constructor|].
    rewrite map_app. unfold emit at 1.
    destruct (option_map val (nthZ (row_of D n b i) j None)) as [d|] eqn:Ed; [|exact IH].
    destruct (b || negb (i =? j)); [|exact IH]. cbn. constructor; [exact IH|].
    apply Forall_forall. intros y Hy. apply in_map_iff in Hy. destruct Hy as [p [<- Hp]].
    apply in_flat_map in Hp. destruct Hp as [j' [Hj' Hp]]. unfold emit in Hp.
    destruct (option_map val (nthZ (row_of D n b i) j' None)) as [d'|] eqn:Ed'; [|destruct Hp].
    destruct (b || negb (i =? j')); [|destruct Hp]. destruct Hp as [<-|[]]. cbn.
    rewrite Forall_forall in Hall. specialize (Hall j' Hj'). rewrite Ed' in Hall. cbn in Hall. lia.
Qed.

(* finite distances: exactly k_eff neighbours, and they are nearest *)
Lemma masked_not_chosen n k i : 0 <= i < n -> 0 < k_eff n k false ->
  finite_distances D n false -> ~ In i (chosen n k false i).
Proof.
  intros Hi Hk Hf Hin. assert (Hn : 0 <= n) by lia.
  destruct (chosen_facts n k false i Hn Hk) as (Hnd & Hlen & Hr & Hmin).
  (* if i were chosen, every unchosen j would be non-finite; so all of 0..n-1 is chosen, more than k_eff *)
  assert (Hall : incl (arange n) (chosen n k false i)).
  { intros j Hj. apply arange_In in Hj.
    destruct (in_dec Z.eq_dec j (chosen n k false i)) as [H|H]; [exact H|]. exfalso.
    assert (Hji : j <> i) by (intros ->; contradiction).
    pose proof (Hmin i j Hin Hj H) as E. rewrite !row_of_nth in E by assumption.
    rewrite Z.eqb_refl in E. cbn in E. replace (i =? j) with false in E by lia. cbn in E.
    destruct (Hf i j Hi) as [d Hd]; [split; [exact Hj|right; exact Hji]|]. rewrite Hd in E. discriminate. }
  pose proof (NoDup_incl_length (arange_NoDup n) Hall) as Hle. rewrite arange_length in Hle.
  unfold lenZ in Hlen. unfold k_eff in Hlen. lia.
Qed.

Lemma knn_row_finite n k b i : 0 <= i < n -> 0 < k_eff n k b -> finite_distances D n b ->
  map (fun p : edge * Z => snd (fst p)) (knn_row part argsort val D n k b i) = chosen n k b i.
Proof.
  intros Hi Hk Hf. assert (Hn : 0 <= n) by lia. rewrite knn_row_eq.
  destruct (chosen_facts n k b i Hn Hk) as (_ & _ & Hr & _).
  assert (Hel : forall j, In j (chosen n k b i) -> b = true \/ j <> i).
  { intros j Hj. destruct b; [left; reflexivity|right]. intros ->.
    revert Hj. apply masked_not_chosen; assumption. }
  induction (chosen n k b i) as [|j l IH]; cbn; [reflexivity|]. rewrite map_app.
  rewrite (IH (fun j H => Hr j (or_intror H)) (fun j H => Hel j (or_intror H))).
  assert (Hrj : 0 <= j < n) by (apply Hr; left; reflexivity).
  assert (Hej : b = true \/ j <> i) by (apply Hel; left; reflexivity).
  rewrite row_of_nth by exact Hrj. destruct (Hf i j Hi) as [d Hd]; [split; assumption|].
  replace (negb b && (i =? j)) with false by (destruct b; cbn; lia).
  rewrite Hd. cbn. replace (b || negb (i =? j)) with true by (destruct b; cbn; lia). reflexivity.
Qed.

Lemma nearest n k b i j j' x y : 0 <= i < n -> 0 < k_eff n k b -> finite_distances D n b ->
  In j (chosen n k b i) -> eligible n b i j' -> ~ In j' (chosen n k b i) ->
  D i j = Some x -> D i j' = Some y -> x <= y.
Proof.
  intros Hi Hk Hf Hj [Hj' He'] Hn' Hx Hy. assert (Hn : 0 <= n) by lia.
  destruct (chosen_facts n k b i Hn Hk) as (_ & _ & Hr & Hmin).
  pose proof (Hmin j j' Hj Hj' Hn') as E. pose proof (Hr j Hj) as Hrj.
  assert (Hej : b = true \/ j <> i).
  { destruct b; [left; reflexivity|right]. intros ->. revert Hj. apply masked_not_chosen; assumption. }
  rewrite !row_of_nth in E by assumption.
  replace (negb b && (i =? j)) with false in E by (destruct b; cbn; lia).
  replace (negb b && (i =? j')) with false in E by (destruct b; cbn; lia).
  rewrite Hx, Hy in E. cbn in E. lia.
Qed.
End Numpy.

(* --------------------------------------------------------------------------------- resume *)
Lemma part_name_inj a b a' b' : part_name a b = part_name a' b' -> a = a' /\ b = b'.
Proof.
  unfold part_name. intros H. cbn in H. injection H as H.
  apply (split_unique "_"%char) in H.
  - destruct H as [H1 H2]. apply dec_inj in H1. apply append_inv_tail in H2. apply dec_inj in H2. auto.
  - apply dec_no_char; [reflexivity|discriminate].
  - apply dec_no_char; [reflexivity|discriminate].
Qed.
Lemma part_name_dots a b : count_char "." (part_name a b) = 1%nat.
Proof.
  unfold part_name. rewrite !count_app, !dec_no_char by (reflexivity || discriminate). reflexivity.
Qed.
Lemma tmp_name_fresh a b a' b' rnd : (part_name a b ++ rnd ++ ".tmp.npz")%string <> part_name a' b'.
Proof.
  intros H. apply (f_equal (count_char ".")) in H. rewrite !count_app, !part_name_dots in H. cbn in H. lia.
Qed.

Lemma pbind_val {V A B} (m : prog V A) (k : A -> prog V B) f a s :
  m f = (Ok a, s) -> pbind m k f = (fst (k a (run s f)), s ++ snd (k a (run s f))).
Proof. intros H. unfold pbind. rewrite H. destruct (k a (run s f)). reflexivity. Qed.

Section Resume.
Variable part : list dist -> Z -> list Z.
Variable argsort : list dist -> list Z.
Variable val : Z -> Z.
Variable D : Z -> Z -> dist.
Variables n k : Z.
Variable b : bool.
Variable wd : path.
Context {V : Type}.
Variable enc : list (edge * Z) -> V.
Variable decd : V -> result (list (edge * Z)).
Hypothesis Hdec : forall x, decd (enc x) = Ok x.
Notation chunk_of := (knn_chunk part argsort val D n k b).

(* every chunk file is absent or holds exactly what the chunk computes *)
Definition good (f : fs V) : Prop :=
  forall x y, f (wd ++ [part_name x y]) = None \/
              f (wd ++ [part_name x y]) = Some (NFile (Whole (enc (chunk_of x y)))).

Lemma good_save_crash x y rnd m f : good f ->
  good (crash m (save_npz_atomic wd (part_name x y) rnd (enc (chunk_of x y))) f).
Proof.
  intros Hg x' y'. unfold save_npz_atomic.
  assert (Ht : forall a c, wd ++ [(part_name x y ++ rnd ++ ".tmp.npz")%string] <> wd ++ [part_name a c]).
  { intros a c. apply app_neq, tmp_name_fresh. }
  destruct (string_dec (part_name x' y') (part_name x y)) as [E|E].
  - apply part_name_inj in E. destruct E as [-> ->].
    destruct (atomic_write_crash m (wd ++ [(part_name x y ++ rnd ++ ".tmp.npz")%string]) (wd ++ [part_name x y])
                (enc (chunk_of x y)) f (Ht x y)) as [H|H]; rewrite H; [apply Hg|right; reflexivity].
  - rewrite atomic_write_other; [apply Hg|intros H; symmetry in H; revert H; apply Ht|apply app_neq, E].
Qed.
Lemma good_save_run x y rnd f : good f ->
  good (run (save_npz_atomic wd (part_name x y) rnd (enc (chunk_of x y))) f).
Proof.
  intros Hg. rewrite <- (crash_all (List.length (save_npz_atomic wd (part_name x y) rnd (enc (chunk_of x y)))));
    [apply good_save_crash; exact Hg|lia].
Qed.
Lemma good_mkdir f m : good f -> good (crash m [SMkdir wd] f).
Proof.
  intros Hg x y. rewrite crash_untouched; [apply Hg|].
  intros s [<-|[]]. cbn. intros H. revert H. apply dir_neq_app.
Qed.

Lemma chunk_loop_spec c resume rnds starts f : good f ->
  let m := chunk_loop part argsort val D enc decd n k b c wd resume rnds starts in
  value m f = Ok (flat_map (fun s => chunk_of s (Z.min n (s + c))) starts) /\
  (forall j, good (crash j (snd (m f)) f)).
Proof.
  revert f. induction starts as [|s rest IH]; intros f Hg m.
  - split; [reflexivity|]. intros j. unfold m; cbn. destruct j; exact Hg.
  - set (e := Z.min n (s + c)) in *. set (p := wd ++ [part_name s e]) in *.
    set (body := if resume && exists_path f p
                 then ((fun f => (do v <- read_file ValueError f p; decd v, [])) : prog V (list (edge * Z)))
                 else pbind (psteps (save_npz_atomic wd (part_name s e) (rnds s) (enc (chunk_of s e))))
                        (fun _ => pret (chunk_of s e))).
    assert (Hb : exists st, body f = (Ok (chunk_of s e), st) /\ good (run st f) /\
                            (forall j, good (crash j st f))).
    { unfold body. destruct (resume && exists_path f p) eqn:E.
      - exists []. split; [|split; [exact Hg|intros j; destruct j; exact Hg]].
        apply andb_prop in E. destruct E as [_ E]. unfold exists_path in E.
        destruct (Hg s e) as [H|H]; fold p in H; rewrite H in E; [discriminate|].
        unfold read_file. rewrite H. cbn [bind]. rewrite Hdec. reflexivity.
      - exists (save_npz_atomic wd (part_name s e) (rnds s) (enc (chunk_of s e))). split; [|split].
        + unfold pbind, psteps, pret. rewrite app_nil_r. reflexivity.
        + apply good_save_run, Hg.
        + intros j. apply good_save_crash, Hg. }
    destruct Hb as [st [Hb [Hrun Hcr]]].
    destruct (IH (run st f) Hrun) as [IHv IHc]. cbn zeta in IHv, IHc.
    assert (Hm : m f = (Ok (chunk_of s e ++ flat_map (fun s => chunk_of s (Z.min n (s + c))) rest),
                        st ++ snd (chunk_loop part argsort val D enc decd n k b c wd resume rnds rest (run st f)))).
    { unfold m. cbn [chunk_loop]. fold e. fold p.
      erewrite pbind_val by reflexivity. cbn [run fold_left app].
      fold body. erewrite pbind_val by exact Hb.
      destruct (chunk_loop part argsort val D enc decd n k b c wd resume rnds rest (run st f)) as [r s2] eqn:El.
      unfold value in IHv. rewrite El in IHv. cbn in IHv. subst r.
      erewrite pbind_val by exact El. cbn. rewrite app_nil_r. reflexivity. }
    split.
    + unfold value. rewrite Hm. reflexivity.
    + intros j. rewrite Hm. cbn [snd]. rewrite crash_app.
      destruct (j <? List.length st)%nat; [apply Hcr|apply IHc].
Qed.

Lemma knn_wd_spec c resume rnds f : 0 <= n -> 0 < c -> good f ->
  let m := knn_numpy_wd part argsort val D enc decd n k b c wd resume rnds in
  value m f = knn_numpy part argsort val D n k b c /\
  (forall j, good (crash j (snd (m f)) f)).
Proof.
  intros Hn Hc Hg m. unfold m, knn_numpy_wd, knn_numpy.
  destruct (n =? 0); [split; [reflexivity|intros []; exact Hg]|].
  destruct (k_eff n k b <=? 0); [split; [reflexivity|intros []; exact Hg]|].
  destruct (py_range_total n c Hc) as [starts Hs].
  assert (Hg' : good (run [SMkdir wd] f)).
  { apply (good_mkdir f 1 Hg). }
  destruct (chunk_loop_spec c resume rnds starts (run [SMkdir wd] f) Hg') as [Hv Hcr]. cbn zeta in Hv, Hcr.
  unfold value. erewrite pbind_val by reflexivity.
  cbv beta. erewrite pbind_val by (unfold plift; rewrite Hs; reflexivity). cbn [fst snd app].
  change (run [] (run [SMkdir wd] f)) with (run [SMkdir wd] f).
  split.
  - rewrite Hs. cbn [bind]. exact Hv.
  - intros j. match goal with |- good (crash j (?a :: ?l) f) => change (a :: l) with ([a] ++ l) end.
    rewrite crash_app. destruct (j <? List.length [SMkdir wd])%nat; [apply good_mkdir, Hg|].
    apply Hcr.
Qed.
End Resume.

(* -------------------------------------------------------------------------------- epsilon *)
Lemma eps_numpy_eq val D n r b c l : 0 <= n -> 0 < c ->
  eps_numpy val D n true r b c = Ok l -> l = flat_map (eps_row val D n r b) (arange n).
Proof.
  intros Hn Hc H. unfold eps_numpy in H. destruct (n =? 0) eqn:En.
  - injection H as <-. assert (n = 0) by lia. subst n. reflexivity.
  - cbn [negb] in H. inv_bind H. injection H as <-.
    match goal with E : py_range _ _ = Ok ?s |- _ => pose proof (chunks_cover n c s Hn Hc E) as Hcov end.
    rewrite <- Hcov, flat_map_flat_map. reflexivity.
Qed.
Lemma eps_numpy_total val D n r b c : 0 <= n -> 0 < c -> exists l, eps_numpy val D n true r b c = Ok l.
Proof.
  intros Hn Hc. unfold eps_numpy. destruct (n =? 0); [eauto|]. cbn [negb].
  destruct (py_range_total n c Hc) as [l ->]. cbn. eauto.
Qed.

Lemma combine_map_r {A B} (f : A -> B) l : combine l (map f l) = map (fun x => (x, f x)) l.
Proof. induction l as [|x l IH]; cbn; [reflexivity|]. rewrite IH. reflexivity. Qed.

Lemma eps_row_eq val D n r b i :
  eps_row val D n r b i =
  flat_map (fun j => match (if negb b && (i =? j) then None else D i j) with
                     | Some d => if d <=? r then [((i, j), val d)] else []
                     | None => []
                     end) (arange n).
Proof.
  unfold eps_row, row_of. rewrite combine_map_r. induction (arange n) as [|j l IH]; [reflexivity|].
  cbn [map flat_map fst snd]. rewrite IH. reflexivity.
Qed.

Lemma in_eps_row val D n r b i i' j v :
  In ((i', j), v) (eps_row val D n r b i) <->
  i' = i /\ eligible n b i j /\ exists d, D i j = Some d /\ d <= r /\ v = val d.
Proof.
  rewrite eps_row_eq, in_flat_map. unfold eligible. split.
  - intros [j' [Hj H]]. apply arange_In in Hj. destruct (negb b && (i =? j')) eqn:Eb; [destruct H|].
    destruct (D i j') as [d|] eqn:Ed; [|destruct H]. destruct (d <=? r) eqn:Er; [|destruct H].
    destruct H as [H|[]]. inversion H; subst. split; [reflexivity|]. split.
    + split; [exact Hj|]. destruct b; [left; reflexivity|right; cbn in Eb; lia].
    + exists d. split; [exact Ed|]. split; [lia|reflexivity].
  - intros [-> [[Hj Hb] [d [Hd [Hr ->]]]]]. exists j. split; [apply arange_In, Hj|].
    replace (negb b && (i =? j)) with false by (destruct b; cbn; lia). rewrite Hd.
    replace (d <=? r) with true by lia. left. reflexivity.
Qed.
Lemma NoDup_flat_singletons {A B} (key : B -> A) (g : A -> list B) l :
  (forall x, g x = [] \/ exists y, g x = [y] /\ key y = x) -> NoDup l ->
  map key (flat_map g l) = filter (fun x => match g x with [] => false | _ => true end) l.
Proof.
  intros Hg _. induction l as [|x l IH]; [reflexivity|]. cbn [flat_map filter]. rewrite map_app, IH.
  destruct (Hg x) as [->|[y [-> E]]]; cbn; [reflexivity|]. rewrite E. reflexivity.
Qed.
Lemma eps_row_nodup val D n r b i : NoDup (map (fun p : edge * Z => snd (fst p)) (eps_row val D n r b i)).
Proof.
  rewrite eps_row_eq. rewrite NoDup_flat_singletons.
  - apply NoDup_filter, arange_NoDup.
  - intros x. destruct (if negb b && (i =? x) then None else D i x); [|left; reflexivity].
    destruct (_ <=? r); [right|left; reflexivity]. eexists. split; reflexivity.
  - apply arange_NoDup.
Qed.

(* -------------------------------------------------------------------- sklearn and faiss *)
Lemma sklearn_targets nb n k b i : 0 <= i < n ->
  targets (knn_sklearn nb n k b) i =
  filter (fun j => b || negb (j =? i)) (map fst (nb i (Z.min n (k + (if b then 0 else 1))))).
Proof.
  intros Hi. unfold targets, knn_sklearn. replace (n =? 0) with false by lia.
  set (m := Z.min n (k + (if b then 0 else 1))).
  set (row := fun i => map (fun q : Z * Z => ((i, fst q), snd q)) (nb i m)).
  assert (E : filter (fun p : edge * Z => fst (fst p) =? i)
                (filter (fun p : edge * Z => b || negb (snd (fst p) =? fst (fst p))) (flat_map row (arange n)))
              = filter (fun p : edge * Z => b || negb (snd (fst p) =? fst (fst p))) (row i)).
  { assert (G : forall (f g : edge * Z -> bool) l, filter f (filter g l) = filter g (filter f l)).
    { intros f g l. induction l as [|p l IH]; [reflexivity|]. cbn.
      destruct (f p) eqn:E1, (g p) eqn:E2; cbn; rewrite ?E1, ?E2, ?IH; reflexivity. }
    rewrite G. f_equal. apply (rows_of_source row (arange n) i).
    - intros x p H. unfold row in H. apply in_map_iff in H. destruct H as [q [<- _]]. reflexivity.
    - apply arange_NoDup.
    - apply arange_In, Hi. }
  transitivity (map (fun p : edge * Z => snd (fst p))
    (filter (fun p : edge * Z => b || negb (snd (fst p) =? fst (fst p))) (row i))); [exact (f_equal _ E)|].
  unfold row. clear E. induction (nb i m) as [|q l IH]; [reflexivity|]. cbn.
  destruct (b || negb (fst q =? i)); cbn; rewrite IH; reflexivity.
Qed.

Lemma faiss_targets s n k b i : 0 <= i < n ->
  targets (knn_faiss s n k b) i = filter (fun j => 0 <=? j) (map fst (faiss_row s n k b i)).
Proof.
  intros Hi. unfold targets, knn_faiss.
  set (row := fun i => map (fun q : Z * Z => ((i, fst q), snd q))
             (filter (fun q => 0 <=? fst q) (faiss_row s n k b i))).
  transitivity (map (fun p : edge * Z => snd (fst p)) (row i)).
  2: { unfold row. induction (faiss_row s n k b i) as [|q l IH]; [reflexivity|]. cbn.
       destruct (0 <=? fst q); cbn; rewrite IH; reflexivity. }
  f_equal. apply (rows_of_source row (arange n) i).
  - intros x p H. apply in_map_iff in H. destruct H as [q [<- _]]. reflexivity.
  - apply arange_NoDup.
  - apply arange_In, Hi.
Qed.

(* -------------------------------------------- a reference argsort: the contracts can be met *)
Fixpoint ins_by (row : list dist) (x : Z) (l : list Z) : list Z :=
  match l with
  | [] => [x]
  | y :: r => if dist_leb (nthZ row x None) (nthZ row y None) then x :: l else y :: ins_by row x r
  end.
Definition ref_argsort (row : list dist) : list Z := fold_right (ins_by row) [] (arange (lenZ row)).
Definition ref_part (row : list dist) (k : Z) : list Z := firstn (Z.to_nat k) (ref_argsort row).

Lemma dist_leb_total a b : dist_leb a b = false -> dist_leb b a = true.
Proof. destruct a, b; cbn; try congruence; lia. Qed.
Lemma dist_leb_trans a b c : dist_leb a b = true -> dist_leb b c = true -> dist_leb a c = true.
Proof. destruct a, b, c; cbn; try congruence; lia. Qed.
Lemma ins_by_perm row x l : Permutation (ins_by row x l) (x :: l).
Proof.
  induction l as [|y r IH]; cbn; [reflexivity|]. destruct (dist_leb _ _); [reflexivity|].
  rewrite IH. apply perm_swap.
Qed.
Lemma ins_by_sorted row x l :
  StronglySorted (fun a b => dist_leb (nthZ row a None) (nthZ row b None) = true) l ->
  StronglySorted (fun a b => dist_leb (nthZ row a None) (nthZ row b None) = true) (ins_by row x l).
Proof.
  induction l as [|y r IH]; cbn; intros H; [repeat constructor|]. inversion H as [|? ? Hr Hy]; subst.
  destruct (dist_leb (nthZ row x None) (nthZ row y None)) eqn:E.
  - constructor; [exact H|]. constructor; [exact E|]. rewrite Forall_forall in *. intros z Hz.
    eapply dist_leb_trans; [exact E|apply Hy, Hz].
  - constructor; [apply IH, Hr|]. rewrite Forall_forall in *. intros z Hz.
    apply (Permutation_in _ (ins_by_perm row x r)) in Hz. destruct Hz as [<-|Hz]; [apply dist_leb_total, E|apply Hy, Hz].
Qed.
Lemma ref_argsort_ok : argsort_ok ref_argsort.
Proof.
  intros row. unfold ref_argsort. split.
  - induction (arange (lenZ row)) as [|x l IH]; cbn; [reflexivity|]. rewrite ins_by_perm, IH. reflexivity.
  - induction (arange (lenZ row)) as [|x l IH]; cbn; [constructor|]. apply ins_by_sorted, IH.
Qed.
Lemma sorted_split {A} (R : A -> A -> Prop) l m a c : StronglySorted R (l ++ m) -> In a l -> In c m -> R a c.
Proof.
  induction l as [|x l IH]; cbn; intros H Ha Hc; [destruct Ha|]. inversion H as [|? ? Hs Hall]; subst.
  destruct Ha as [->|Ha]; [|apply IH; assumption]. rewrite Forall_forall in Hall. apply Hall, in_or_app. auto.
Qed.
Lemma ref_part_ok : part_ok ref_part.
Proof.
  intros row k Hk. destruct (ref_argsort_ok row) as [Hp Hs]. unfold ref_part.
  pose proof (firstn_skipn (Z.to_nat k) (ref_argsort row)) as E.
  assert (Hnd : NoDup (ref_argsort row)) by (eapply Permutation_NoDup; [symmetry; exact Hp|apply arange_NoDup]).
  assert (Hin : forall j, In j (ref_argsort row) <-> 0 <= j < lenZ row).
  { intros j. rewrite <- arange_In. split; apply Permutation_in; [exact Hp|symmetry; exact Hp]. }
  pose proof (Permutation_length Hp) as Hl. rewrite arange_length in Hl.
  split; [rewrite <- E in Hnd; apply NoDup_app_iff in Hnd; apply Hnd|].
  split; [unfold lenZ in *; rewrite firstn_length; lia|].
  split; [intros j Hj; apply Hin; rewrite <- E; apply in_or_app; auto|].
  intros j j' Hj Hj' Hn. apply Hin in Hj'. rewrite <- E in Hj'. apply in_app_or in Hj'.
  destruct Hj' as [Hj'|Hj']; [contradiction|]. rewrite <- E in Hs.
  exact (sorted_split _ _ _ _ _ Hs Hj Hj').
Qed.

(* --------------------------------------------------------------------------------- anchors *)
Lemma concat_res_in {A B} (f : A -> result (list B)) l r x :
  concat_res f l = Ok r -> (In x r <-> exists a s, In a l /\ f a = Ok s /\ In x s).
Proof.
  revert r. induction l as [|a l IH]; cbn; intros r H.
  - injection H as <-. cbn. split; [tauto|]. intros (a & s & [] & _).
  - inv_bind H. inv_bind H. injection H as <-. rewrite in_app_iff, (IH _ E0). split.
    + intros [H|(a' & s & Ha & Hf & Hx)]; [exists a; eauto|exists a', s; auto].
    + intros (a' & s & [<-|Ha] & Hf & Hx); [left; congruence|right; eauto].
Qed.
Lemma concat_res_rows' {P} (dom : Z -> Prop) (row : Z -> result (list (edge * P))) l r i :
  (forall x s p, dom x -> row x = Ok s -> In p s -> fst (fst p) = x) -> (forall x, In x l -> dom x) -> NoDup l -> In i l ->
  concat_res row l = Ok r ->
  exists s, row i = Ok s /\ filter (fun p : edge * P => fst (fst p) =? i) r = s.
Proof.
  intros Hsrc Hdom Hnd Hi H.
  set (g := fun x => match row x with Ok s => filter (fun p : edge * P => fst (fst p) =? x) s | Err _ => [] end).
  assert (Hid : forall x s, dom x -> row x = Ok s -> filter (fun p : edge * P => fst (fst p) =? x) s = s).
  { intros x s Hx Hs. assert (Ha : forall p, In p s -> fst (fst p) = x) by (intros p Hp; eapply Hsrc; eassumption).
    clear Hs. induction s as [|p s IH]; [reflexivity|]. cbn. rewrite (Ha p (or_introl eq_refl)), Z.eqb_refl.
    f_equal. apply IH. intros q Hq. apply Ha. right; exact Hq. }
  assert (Hr : r = flat_map g l /\ forall x, In x l -> exists s, row x = Ok s).
  { clear Hnd Hi. revert r H Hdom. induction l as [|a l IH]; cbn; intros r H Hdom.
    - injection H as <-. split; [reflexivity|]. intros x [].
    - inv_bind H. inv_bind H. injection H as <-. destruct (IH _ E0) as [E1 E2]; [intros; apply Hdom; right; assumption|]. split.
      + rewrite <- E1. f_equal. unfold g. match goal with E : row a = Ok ?s |- _ => rewrite E, (Hid a s (Hdom a (or_introl eq_refl)) E) end. reflexivity.
      + intros x [<-|Hx]; [eauto|apply E2, Hx]. }
  destruct Hr as [-> Hok]. destruct (Hok i Hi) as [s Hs]. exists s. split; [exact Hs|].
  rewrite (rows_of_source g l i); [unfold g; rewrite Hs; apply Hid; auto| |exact Hnd|exact Hi].
  intros x p Hp. unfold g in Hp. destruct (row x) eqn:E; [|destruct Hp]. apply filter_In in Hp. destruct Hp. lia.
Qed.

Lemma index_all_in m l xs a : index_all m l = Ok xs ->
  (In a xs <-> exists b, In b l /\ - m <= b < m /\ a = if b <? 0 then b + m else b).
Proof.
  revert xs. induction l as [|b l IH]; cbn; intros xs H.
  - injection H as <-. cbn. split; [tauto|]. intros (b & [] & _).
  - inv_bind H. inv_bind H. injection H as <-. cbn. rewrite (IH _ E0).
    match goal with E : py_index _ _ = _ |- _ => unfold py_index in E end.
    destruct ((- m <=? b) && (b <? m)) eqn:Eb; [|discriminate].
    match goal with E : Ok _ = Ok _ |- _ => injection E as E end. split.
    + intros [Ha|(b' & Hb' & Hr & ->)]; [exists b; split; [auto|split; [lia|congruence]]|exists b'; auto].
    + intros (b' & [<-|Hb'] & Hr & ->); [left; congruence|right; eauto].
Qed.
Lemma assign_anchors_in ai m nodes t a i : assign_anchors ai m nodes = Ok t ->
  (In (a, i) t <-> In i nodes /\ exists xs, index_all m (ai i) = Ok xs /\ In a xs).
Proof.
  revert t. induction nodes as [|j r IH]; cbn; intros t H.
  - injection H as <-. cbn. tauto.
  - inv_bind H. inv_bind H. injection H as <-. rewrite in_app_iff, (IH _ E0), in_map_iff. split.
    + intros [(a9 & E1 & Ha)|(Hi & Hx)]; [inversion E1; subst; split; [auto|eauto]|auto].
    + intros ([->|Hi] & xs & Hxs & Ha); [left|right; eauto].
      exists a. split; [reflexivity|congruence].
Qed.

Section Anchor.
Variable part : list dist -> Z -> list Z.
Variable argsort : list dist -> list Z.
Variable D : Z -> Z -> Z.
Variable ai : Z -> list Z.
Variable choice : Z -> list Z -> Z -> list Z.
Hypothesis Hpart : part_ok part.
Hypothesis Hsort : argsort_ok argsort.
Hypothesis Hchoice : choice_ok choice.
Variables n m k limit : Z.
Variable b : bool.
Hypothesis Hai : forall i a, 0 <= i < n -> In a (ai i) -> 0 <= a < m.

Lemma index_all_id l : (forall a, In a l -> 0 <= a < m) -> index_all m l = Ok l.
Proof.
  induction l as [|a l IH]; intros H; [reflexivity|]. cbn. unfold py_index.
  pose proof (H a (or_introl eq_refl)). replace ((- m <=? a) && (a <? m)) with true by lia. cbn.
  replace (a <? 0) with false by lia. rewrite IH by (intros; apply H; right; assumption). reflexivity.
Qed.
Lemma assign_total nodes : (forall i, In i nodes -> 0 <= i < n) -> exists t, assign_anchors ai m nodes = Ok t.
Proof.
  induction nodes as [|i r IH]; intros H; [eexists; reflexivity|]. cbn.
  rewrite index_all_id by (intros a; apply Hai, H; left; reflexivity). cbn.
  destruct IH as [t ->]; [intros; apply H; right; assumption|]. eexists; reflexivity.
Qed.

Definition cands (table : list (Z * Z)) (i : Z) : list Z :=
  let u := uniqueZ (map snd (filter (fun p => memZ (fst p) (ai i)) table)) in
  if b then u else filter (fun j => negb (j =? i)) u.

Lemma cands_in table i j : assign_anchors ai m (arange n) = Ok table -> 0 <= i < n ->
  (In j (cands table i) <-> eligible n b i j /\ shares_anchor ai i j).
Proof.
  intros Ht Hi.
  assert (Hu : In j (uniqueZ (map snd (filter (fun p => memZ (fst p) (ai i)) table))) <->
               0 <= j < n /\ shares_anchor ai i j).
  { rewrite uniqueZ_In, in_map_iff. unfold shares_anchor. split.
    - intros [[a j'] [Ej H]]. cbn in Ej; subst j'. apply filter_In in H. destruct H as [H Hm]. cbn in Hm.
      apply memZ_In in Hm. apply (assign_anchors_in _ _ _ _ _ _ Ht) in H. destruct H as [Hj (xs & Hxs & Ha)].
      apply arange_In in Hj. rewrite index_all_id in Hxs by (intros; eapply Hai; eassumption).
      injection Hxs as <-. split; [exact Hj|]. exists a. auto.
    - intros [Hj (a & Ha & Hb)]. exists (a, j). split; [reflexivity|]. apply filter_In. split.
      + apply (assign_anchors_in _ _ _ _ _ _ Ht). split; [apply arange_In, Hj|]. exists (ai j).
        split; [apply index_all_id; intros; eapply Hai; eassumption|exact Hb].
      + cbn. apply memZ_In, Ha. }
  unfold cands, eligible. destruct b.
  - rewrite Hu. tauto.
  - rewrite filter_In, Hu. rewrite negb_true_iff, Z.eqb_neq. intuition congruence.
Qed.
Lemma cands_nodup table i : NoDup (cands table i).
Proof.
  unfold cands. destruct b; [apply uniqueZ_NoDup|apply NoDup_filter, uniqueZ_NoDup].
Qed.

Definition limited (table : list (Z * Z)) (i : Z) : list Z :=
  if limit <? lenZ (cands table i) then sortZ (choice i (cands table i) limit) else cands table i.

Lemma anchor_row_spec table i : 0 <= limit -> 0 <= i < n ->
  assign_anchors ai m (arange n) = Ok table ->
  exists r, anchor_row part argsort D ai choice m k limit b table i = Ok r /\
    (forall p, In p r -> fst (fst p) = i) /\
    lenZ r = Z.max 0 (Z.min k (Z.min limit (lenZ (cands table i)))) /\
    NoDup (map (fun p : edge * Z => snd (fst p)) r) /\
    (forall j d, In ((i, j), d) r -> In j (limited table i) /\ d = D i j) /\
    StronglySorted Z.le (map snd r) /\
    (forall j j', In j (map (fun p : edge * Z => snd (fst p)) r) -> In j' (limited table i) ->
       ~ In j' (map (fun p : edge * Z => snd (fst p)) r) -> D i j <= D i j').
Proof.
  intros Hlim Hi Ht. unfold anchor_row. rewrite index_all_id by (intros; eapply Hai; eassumption).
  cbn [bind]. fold (cands table i).
  assert (Hempty : cands table i = [] -> exists r, Ok ([] : list (edge * Z)) = Ok r /\
    (forall p, In p r -> fst (fst p) = i) /\
    lenZ r = Z.max 0 (Z.min k (Z.min limit (lenZ (cands table i)))) /\
    NoDup (map (fun p : edge * Z => snd (fst p)) r) /\
    (forall j d, In ((i, j), d) r -> In j (limited table i) /\ d = D i j) /\
    StronglySorted Z.le (map snd r) /\
    (forall j j', In j (map (fun p : edge * Z => snd (fst p)) r) -> In j' (limited table i) ->
       ~ In j' (map (fun p : edge * Z => snd (fst p)) r) -> D i j <= D i j')).
  { intros E. exists []. rewrite E. cbn. repeat split; try constructor; try tauto; try lia. }
  destruct (cands table i) as [|c0 cr] eqn:Ec; [apply Hempty; reflexivity|]. clear Hempty.
  rewrite <- Ec. fold (limited table i).
  assert (Hnd : NoDup (limited table i)).
  { unfold limited. destruct (limit <? _) eqn:E; [|apply cands_nodup].
    destruct (Hchoice i (cands table i) limit) as [Hc _]; [lia|].
    apply (Permutation_NoDup (Permutation_sym (sortZ_perm _))), Hc, cands_nodup. }
  assert (Hlen : lenZ (limited table i) = Z.min limit (lenZ (cands table i))).
  { unfold limited. destruct (limit <? lenZ (cands table i)) eqn:E; [|lia].
    unfold lenZ at 1. rewrite (Permutation_length (sortZ_perm _)). fold (lenZ (choice i (cands table i) limit)).
    destruct (Hchoice i (cands table i) limit) as (H1 & H2 & H3); [lia|]. lia. }
  set (cand := limited table i) in *. rewrite <- Hlen.
  set (d := map (fun j => Some (D i j)) cand). set (kk := Z.min k (lenZ cand)).
  destruct (kk <=? 0) eqn:Ek.
  { exists []. split; [reflexivity|]. repeat split; try constructor; try (intros; contradiction); try (cbn; lia). }
  assert (Hld : lenZ d = lenZ cand) by (unfold d, lenZ; rewrite map_length; reflexivity).
  destruct (Hpart d kk) as (P1 & P2 & P3 & P4); [lia|]. set (sel := part d kk) in *.
  set (ds := map (fun s => nthZ d s None) sel). destruct (Hsort ds) as [S1 S2].
  set (sel' := map (fun o => nthZ sel o 0) (argsort ds)).
  assert (Hsel : Permutation sel' sel).
  { apply nth_perm. unfold ds, lenZ in *. rewrite map_length in S1. exact S1. }
  assert (Hin : forall s, In s sel' -> 0 <= s < lenZ cand).
  { intros s Hs. rewrite <- Hld. apply P3, (Permutation_in _ Hsel), Hs. }
  assert (Hdn : forall s, 0 <= s < lenZ cand -> nthZ d s None = Some (D i (nthZ cand s 0))).
  { intros s Hs. unfold d. apply (nthZ_map (fun j => Some (D i j)) cand s 0 None Hs). }
  eexists. split; [reflexivity|].
  split; [|split; [|split; [|split; [|split]]]].
  - intros p Hp. apply in_map_iff in Hp. destruct Hp as [s [<- _]]. reflexivity.
  - unfold lenZ. rewrite map_length. fold (lenZ sel'). unfold lenZ. rewrite (Permutation_length Hsel).
    fold (lenZ sel). rewrite P2. unfold kk in *. unfold lenZ in *. lia.
  - rewrite map_map. cbn [fst snd].
    assert (Hs : NoDup sel') by (eapply Permutation_NoDup; [symmetry; exact Hsel|exact P1]).
    clear - Hs Hin Hnd. induction Hs as [|s l Hs _ IH]; cbn; [constructor|].
    constructor; [|apply IH; intros; apply Hin; right; assumption].
    intros H. apply in_map_iff in H. destruct H as [s' [E Hs']].
    pose proof (Hin s (or_introl eq_refl)) as B1. pose proof (Hin s' (or_intror Hs')) as B2.
    unfold nthZ, lenZ in *. rewrite (NoDup_nth cand 0) in Hnd.
    apply Hnd in E; [|lia|lia]. assert (s' = s) by lia. subst. contradiction.
  - intros j dd H. apply in_map_iff in H. destruct H as [s [E Hs]]. inversion E; subst.
    split; [|reflexivity]. unfold nthZ. apply nth_In. pose proof (Hin s Hs). unfold lenZ in *. lia.
  - rewrite map_map. cbn [snd].
    assert (Hr : Forall (fun o => 0 <= o < lenZ sel) (argsort ds)).
    { apply Forall_forall. intros o Ho. apply (Permutation_in _ S1) in Ho. apply arange_In in Ho.
      unfold ds, lenZ in *. rewrite map_length in Ho. exact Ho. }
    clear Hsel. unfold sel' in *. clear sel'. clear S1. revert Hin Hr. induction S2 as [|o r Hs IH Hall]; intros Hin Hr; cbn; [constructor|].
    inversion Hr as [|? ? Ho Hr']; subst. constructor; [apply IH; [intros; apply Hin; right; assumption|exact Hr']|].
    rewrite Forall_forall in *. intros y Hy. rewrite map_map in Hy. apply in_map_iff in Hy. destruct Hy as [o' [<- Ho']].
    specialize (Hall o' Ho'). unfold ds in Hall.
    rewrite (nthZ_map (fun s => nthZ d s None) sel o 0 None Ho), (nthZ_map (fun s => nthZ d s None) sel o' 0 None (Hr' o' Ho')) in Hall.
    rewrite (Hdn (nthZ sel o 0)) in Hall by (apply Hin; left; reflexivity).
    rewrite (Hdn (nthZ sel o' 0)) in Hall by (apply Hin; right; apply (in_map (fun o => nthZ sel o 0)), Ho').
    cbn in Hall. lia.
  - rewrite map_map. cbn [fst snd]. intros j j' Hj Hj' Hn.
    apply in_map_iff in Hj. destruct Hj as [s [<- Hs]].
    apply (In_nth _ _ 0) in Hj'. destruct Hj' as [t [Hl Et]].
    assert (Ht' : ~ In (Z.of_nat t) sel').
    { intros H. apply Hn. apply in_map_iff. exists (Z.of_nat t). split; [|exact H].
      unfold nthZ. rewrite Nat2Z.id. exact Et. }
    assert (Bt : 0 <= Z.of_nat t < lenZ cand) by (unfold lenZ; lia).
    pose proof (P4 s (Z.of_nat t) (Permutation_in _ Hsel Hs)) as H4. rewrite Hld in H4.
    specialize (H4 Bt (fun H => Ht' (Permutation_in _ (Permutation_sym Hsel) H))).
    rewrite (Hdn s (Hin s Hs)), (Hdn _ Bt) in H4. cbn in H4.
    unfold nthZ at 2 in H4. rewrite Nat2Z.id, Et in H4. lia.
Qed.
End Anchor.

Lemma filter_length_le {A} (f : A -> bool) l : (List.length (filter f l) <= List.length l)%nat.
Proof. induction l as [|x l IH]; cbn; [lia|]. destruct (f x); cbn; lia. Qed.
Lemma firstn_In {A} n (l : list A) x : In x (firstn n l) -> In x l.
Proof. intros H. rewrite <- (firstn_skipn n l). apply in_or_app. auto. Qed.
Lemma filter_neq_length l i : NoDup l -> In i l -> lenZ (filter (fun j => negb (j =? i)) l) = lenZ l - 1.
Proof.
  intros Hnd. induction Hnd as [|x l Hx Hnd IH]; intros Hi; [destruct Hi|]. unfold lenZ in *. cbn [filter List.length].
  destruct (Z.eqb_spec x i) as [->|Hne]; cbn [negb].
  - assert (E : filter (fun j => negb (j =? i)) l = l).
    { clear - Hx. induction l as [|y l IH]; [reflexivity|]. cbn.
      assert (y <> i) by (intros ->; apply Hx; left; reflexivity). replace (y =? i) with false by lia. cbn.
      f_equal. apply IH. intros H'. apply Hx. right; exact H'. }
    rewrite E. lia.
  - destruct Hi as [->|Hi]; [congruence|]. apply IH in Hi. cbn [List.length]. lia.
Qed.
Lemma NoDup_rows {P} (row : Z -> list (edge * P)) l :
  (forall x p, In p (row x) -> fst (fst p) = x) ->
  (forall x, NoDup (map (fun p : edge * P => snd (fst p)) (row x))) -> NoDup l ->
  NoDup (map fst (flat_map row l)).
Proof.
  intros Hsrc Hr Hnd. induction Hnd as [|x l Hx _ IH]; cbn; [constructor|]. rewrite map_app.
  apply NoDup_app_iff. split; [|split; [exact IH|]].
  - apply (NoDup_map_inv snd). rewrite map_map. apply Hr.
  - intros e H1 H2. apply in_map_iff in H1, H2. destruct H1 as [p [E1 H1]], H2 as [q [E2 H2]].
    apply in_flat_map in H2. destruct H2 as [y [Hy H2]]. apply Hsrc in H1, H2.
    rewrite E1 in H1. rewrite E2 in H2. congruence.
Qed.
