From Coq Require Import QArith String ZifyBool ZifyNat.
From Verif Require Import Prelude ListFacts SampleServiceProofs QFacts MetricsModel MetricsSpec.
Local Open Scope Z_scope.
Local Open Scope list_scope.

(* ---------------------------------------------------------------- positions in an ascending list *)
Lemma lenZ_cons {A} (a : A) l : lenZ (a :: l) = lenZ l + 1.
Proof. unfold lenZ. cbn. lia. Qed.
Lemma ss_cons a l x : ascending (a :: l) -> a < x -> searchsorted (a :: l) x = searchsorted l x + 1.
Proof. intros _ H. unfold searchsorted. cbn [filter]. replace (a <? x) with true by lia. apply lenZ_cons. Qed.
Lemma ss_small l x : (forall c, In c l -> x <= c) -> searchsorted l x = 0.
Proof. intros H. unfold searchsorted. rewrite filter_none; [reflexivity|]. intros c Hc. specialize (H c Hc). lia. Qed.
Lemma asc_inv a l : ascending (a :: l) -> ascending l /\ forall c, In c l -> a < c.
Proof. intros H. inversion_clear H as [|? ? H1 H2]. split; [exact H1|]. rewrite Forall_forall in H2. exact H2. Qed.

Lemma ss_nth cs : ascending cs -> forall i, (i < List.length cs)%nat -> searchsorted cs (nth i cs 0) = Z.of_nat i.
Proof.
  induction cs as [|a cs IH]; intros Ha i Hi; [cbn in Hi; lia|]. apply asc_inv in Ha as Ha'. destruct Ha' as [Hc Hlt].
  destruct i as [|i]; cbn [nth].
  - apply ss_small. intros c [<-|Hin]; [lia|]. specialize (Hlt c Hin). lia.
  - cbn in Hi. rewrite ss_cons; [|exact Ha|apply Hlt, nth_In; lia]. rewrite IH; [lia|exact Hc|lia].
Qed.
Lemma ss_range cs x : 0 <= searchsorted cs x <= lenZ cs.
Proof.
  unfold searchsorted, lenZ. split; [lia|]. induction cs as [|a cs IH]; cbn; [lia|]. destruct (a <? x); cbn; lia.
Qed.
Lemma ss_index cs x i : ascending cs -> In x cs -> (i < List.length cs)%nat ->
  searchsorted cs x = Z.of_nat i <-> x = nth i cs 0.
Proof.
  intros Ha Hx Hi. split.
  - destruct (In_nth _ _ 0 Hx) as (j & Hj & <-). rewrite ss_nth by assumption. intros E. f_equal. lia.
  - intros ->. apply ss_nth; assumption.
Qed.
Lemma pi_index cs x i : ascending cs -> (i < List.length cs)%nat -> pred_index cs x = Z.of_nat i <-> x = nth i cs 0.
Proof.
  intros Ha Hi. unfold pred_index. destruct cs as [|a l] eqn:Ec; [cbn in Hi; lia|]. rewrite <- Ec in *.
  pose proof (ss_range cs x) as R. unfold clampZ. assert (Hl : lenZ cs = Z.of_nat (List.length cs)) by reflexivity.
  destruct (_ && _) eqn:E.
  - assert (Hx : nth (Z.to_nat (searchsorted cs x)) cs 0 = x).
    { replace (searchsorted cs x) with (Z.max 0 (Z.min (lenZ cs - 1) (searchsorted cs x))) by lia. lia. }
    assert (Hlt : (Z.to_nat (searchsorted cs x) < List.length cs)%nat) by lia.
    rewrite <- (ss_index cs x i Ha); [lia|rewrite <- Hx; apply nth_In; exact Hlt|exact Hi].
  - split; [lia|]. intros ->. exfalso. rewrite (ss_nth cs Ha i Hi) in E. assert (G : nth (Z.to_nat (Z.max 0 (Z.min (lenZ cs - 1) (Z.of_nat i)))) cs 0 = nth i cs 0).
    { f_equal. lia. }
    rewrite G in E. lia.
Qed.

(* ---------------------------------------------------------------- counting by class *)
Lemma count_map_iff {A} (f : A -> Z) i (g : A -> bool) l : (forall a, In a l -> (f a = i <-> g a = true)) ->
  countZ i (map f l) = lenZ (filter g l).
Proof.
  induction l as [|a l IH]; intros H; [reflexivity|]. unfold countZ in *. cbn.
  specialize (IH (fun b Hb => H b (or_intror Hb))). pose proof (H a (or_introl eq_refl)) as Ha.
  destruct (Z.eq_dec (f a) i) as [E|E], (g a) eqn:G; try (exfalso; intuition congruence).
  - rewrite lenZ_cons. lia.
  - exact IH.
Qed.
Lemma map_arange_nth {B} (F : Z -> B) (G : Z -> B) cs :
  (forall i, (i < List.length cs)%nat -> F (Z.of_nat i) = G (nth i cs 0)) -> map F (arange (lenZ cs)) = map G cs.
Proof.
  intros H. unfold arange, lenZ. rewrite Nat2Z.id, map_map. rewrite <- (map_nth_seq cs 0) at 2. rewrite map_map.
  apply map_ext_in. intros i Hi. apply in_seq in Hi. apply H. lia.
Qed.

Section Counts.
Variables (y p : list Z).
Hypothesis Hlen : List.length y = List.length p.
Notation cs := (uniqueZ y).
Notation s := (combine y p).
Lemma fst_combine : map fst s = y.
Proof. clear -Hlen. revert p Hlen. induction y as [|a l IH]; intros [|b q] H; try discriminate; [reflexivity|]. cbn. f_equal. apply IH. injection H as H. exact H. Qed.
Lemma snd_combine : map snd s = p.
Proof. clear -Hlen. revert p Hlen. induction y as [|a l IH]; intros [|b q] H; try discriminate; [reflexivity|]. cbn. f_equal. apply IH. injection H as H. exact H. Qed.

Lemma true_counts : bincount (map (searchsorted cs) y) (lenZ cs) = map (fun c => truly c s) cs.
Proof.
  unfold bincount. apply map_arange_nth. intros i Hi. unfold truly, how_many. rewrite <- fst_combine at 2. rewrite map_map.
  apply count_map_iff. intros [a b] Hin. cbn. rewrite (ss_index cs a i); [|apply uniqueZ_ascending| |exact Hi]; [lia|].
  apply uniqueZ_In. rewrite <- fst_combine. apply (in_map fst) in Hin. exact Hin.
Qed.
Lemma pred_counts : bincount (filter (fun i => 0 <=? i) (map (pred_index cs) p)) (lenZ cs) = map (fun c => predicted c s) cs.
Proof.
  unfold bincount. apply map_arange_nth. intros i Hi. unfold predicted, how_many. rewrite <- snd_combine at 1.
  rewrite map_map. transitivity (countZ (Z.of_nat i) (map (fun x => pred_index cs (snd x)) s)).
  - generalize (map (fun x => pred_index cs (snd x)) s). intros l. clear. induction l as [|a l IH]; [reflexivity|].
    cbn. destruct (Z.leb_spec 0 a); unfold countZ in *; cbn; destruct (Z.eq_dec a (Z.of_nat i)); try lia.
  - apply count_map_iff. intros [a b] Hin. cbn. rewrite (pi_index cs b i); [lia|apply uniqueZ_ascending|exact Hi].
Qed.
Lemma tp_counts : bincount (correct (map (searchsorted cs) y) (map (pred_index cs) p)) (lenZ cs) = map (fun c => hits c s) cs.
Proof.
  unfold bincount. apply map_arange_nth. intros i Hi. unfold correct.
  assert (E : combine (map (searchsorted cs) y) (map (pred_index cs) p) = map (fun x => (searchsorted cs (fst x), pred_index cs (snd x))) s).
  { generalize cs. clear -Hlen. revert p Hlen. induction y as [|a l IH]; intros [|b q] H cs; try discriminate; [reflexivity|]. cbn.
    f_equal. apply IH. injection H as H. exact H. }
  rewrite E. unfold hits, how_many.
  assert (G : forall l, (forall a b, In (a, b) l -> In a y) ->
     countZ (Z.of_nat i) (map fst (filter (fun p0 => snd p0 =? fst p0) (map (fun x => (searchsorted cs (fst x), pred_index cs (snd x))) l))) =
     lenZ (filter (fun q => (fst q =? nth i cs 0) && (snd q =? nth i cs 0)) l)).
  { induction l as [|[a b] l IH]; intros Hl; [reflexivity|]. cbn [map filter fst snd].
    assert (Ha : In a cs) by (apply uniqueZ_In, (Hl a b); left; reflexivity).
    pose proof (ss_index cs a i (uniqueZ_ascending y) Ha Hi) as Sa. pose proof (pi_index cs b i (uniqueZ_ascending y) Hi) as Sb.
    specialize (IH (fun a b H => Hl a b (or_intror H))).
    destruct (Z.eqb_spec (pred_index cs b) (searchsorted cs a)) as [Eq|Ne].
    - cbn [map fst]. unfold countZ in *. cbn [count_occ]. destruct (Z.eq_dec (searchsorted cs a) (Z.of_nat i)) as [E1|E1].
      + assert (a = nth i cs 0) by (apply Sa; exact E1). assert (b = nth i cs 0) by (apply Sb; congruence).
        replace ((a =? nth i cs 0) && (b =? nth i cs 0)) with true by lia. rewrite lenZ_cons. lia.
      + assert (a <> nth i cs 0) by (rewrite <- Sa; exact E1). replace ((a =? nth i cs 0) && (b =? nth i cs 0)) with false by lia. exact IH.
    - destruct ((a =? nth i cs 0) && (b =? nth i cs 0)) eqn:E1; [|exact IH]. exfalso.
      assert (A : a = nth i cs 0) by lia. assert (B : b = nth i cs 0) by lia. apply Sa in A. apply Sb in B. congruence. }
  apply G. intros a b Hin. rewrite <- fst_combine. apply (in_map fst) in Hin. exact Hin.
Qed.

Lemma cs_classes : classes_of s cs.
Proof.
  split; [apply uniqueZ_NoDup|]. intros c. rewrite uniqueZ_In. rewrite <- fst_combine at 1. rewrite in_map_iff. split.
  - intros ([a b] & <- & H). exists b. exact H.
  - intros [b H]. exists (c, b). auto.
Qed.
End Counts.

Lemma hits_le c s : 0 <= hits c s /\ hits c s <= truly c s /\ hits c s <= predicted c s.
Proof.
  unfold hits, truly, predicted, how_many, lenZ. induction s as [|[a b] s IH]; cbn; [lia|].
  destruct (a =? c), (b =? c); cbn; lia.
Qed.
Lemma truly_pos c s : (exists p, In (c, p) s) <-> 0 < truly c s.
Proof.
  unfold truly, how_many, lenZ. induction s as [|[a b] s IH]; cbn; [split; [intros [p []]|lia]|]. split.
  - intros [p [[= -> ->]|H]]; [rewrite Z.eqb_refl; cbn; lia|]. destruct (a =? c); cbn; [lia|]. apply IH. eauto.
  - destruct (Z.eqb_spec a c) as [->|]; [eauto|]. intros H. apply IH in H. destruct H as [p H]. eauto.
Qed.
Lemma hits_all c s : hits c s = truly c s <-> forall b, In (c, b) s -> b = c.
Proof.
  unfold hits, truly, how_many, lenZ. induction s as [|[a b] s IH]; cbn; [split; [intros _ b []|reflexivity]|].
  pose proof (hits_le c s) as L. unfold hits, truly, how_many, lenZ in L.
  destruct (Z.eqb_spec a c) as [->|Na]; cbn [andb].
  - destruct (Z.eqb_spec b c) as [->|Nb]; cbn.
    + split.
      * intros H b [[= <-]|Hb]; [reflexivity|]. apply IH; [lia|exact Hb].
      * intros H. assert (forall b, In (c, b) s -> b = c) by (intros b Hb; apply H; right; exact Hb). apply IH in H0. lia.
    + split; [lia|]. intros H. exfalso. apply Nb, H. left. reflexivity.
  - rewrite IH. split; intros H b' Hb'; [destruct Hb' as [[= ? ?]|Hb']; [congruence|apply H, Hb']|apply H; right; exact Hb'].
Qed.

Lemma combine_ne (y p : list Z) : List.length y = List.length p -> y <> [] -> combine y p <> [].
Proof. destruct y, p; cbn; congruence. Qed.
Lemma unique_ne y : y <> [] -> uniqueZ y <> [].
Proof. intros H E. destruct y as [|a l]; [congruence|]. assert (In a (uniqueZ (a :: l))) by (apply uniqueZ_In; left; reflexivity). rewrite E in H0. destruct H0. Qed.

Lemma divide_map (f g : Z -> Z) cs : (forall c, In c cs -> 0 < g c) -> divide (map f cs) (map g cs) = map (fun c => ratio (f c) (g c)) cs.
Proof.
  unfold divide. induction cs as [|c cs IH]; intros H; [reflexivity|]. cbn. f_equal; [|apply IH; intros; apply H; right; assumption].
  specialize (H c (or_introl eq_refl)). replace (0 <? g c) with true by lia. reflexivity.
Qed.
Lemma divide_map0 (f g : Z -> Z) cs : divide (map f cs) (map g cs) = map (fun c => if 0 <? g c then ratio (f c) (g c) else 0%Q) cs.
Proof. unfold divide. induction cs as [|c cs IH]; [reflexivity|]. cbn. f_equal. exact IH. Qed.

Lemma accuracy_spec y p : List.length y = List.length p -> y <> [] ->
  exists x, accuracy y p = Some x /\ (x == ratio (how_many (fun q => fst q =? snd q) (combine y p)) (lenZ y))%Q.
Proof.
  intros Hl Hy. unfold accuracy. destruct y as [|a l] eqn:Ey; [congruence|]. rewrite <- Ey in *. eexists. split; [reflexivity|].
  unfold Qmean, ratio. assert (E1 : lenZ (map (fun p0 : Z * Z => if fst p0 =? snd p0 then 1%Q else 0%Q) (combine y p)) = lenZ y).
  { unfold lenZ. rewrite map_length, combine_length. lia. }
  rewrite E1. assert (E2 : forall s : pairs, (Qsum (map (fun q => if fst q =? snd q then 1 else 0) s) == inject_Z (how_many (fun q => fst q =? snd q) s))%Q).
  { induction s as [|[u v] s IH]; [reflexivity|]. unfold how_many in *. cbn [map filter fst snd]. rewrite Qsum_cons, IH.
    destruct (u =? v); [rewrite lenZ_cons, inject_Z_plus; ring|ring]. }
  rewrite E2. reflexivity.
Qed.
Lemma balanced_spec y p : List.length y = List.length p -> y <> [] ->
  balanced_accuracy y p = Some (Qmean (map (recall (combine y p)) (uniqueZ y))).
Proof.
  intros Hl Hy. unfold balanced_accuracy. destruct y as [|a l] eqn:Ey; [congruence|]. rewrite <- Ey in *.
  rewrite (true_counts y p Hl), (tp_counts y p Hl). rewrite divide_map; [reflexivity|].
  intros c Hc. apply truly_pos. apply (cs_classes y p Hl). exact Hc.
Qed.
Lemma f1_identity tp t p : 0 <= tp <= t -> tp <= p -> 0 < t ->
  (f1_score ((if 0 <? p then ratio tp p else 0%Q), ratio tp t) == ratio (2 * tp) (t + p))%Q.
Proof.
  intros H1 H2 Ht. unfold f1_score. cbn [fst snd].
  assert (Qt : ~ (inject_Z t == 0)%Q) by (change 0%Q with (inject_Z 0); rewrite inject_Z_injective; lia).
  assert (Qtp : ~ (inject_Z t + inject_Z p == 0)%Q) by (rewrite <- inject_Z_plus; change 0%Q with (inject_Z 0); rewrite inject_Z_injective; lia).
  destruct (Z.eq_dec tp 0) as [->|Ntp].
  - assert (Z0 : forall x, (ratio 0 x == 0)%Q) by (intros x; unfold ratio; change (inject_Z 0) with 0%Q; unfold Qdiv; ring).
    assert (D : ((if 0 <? p then ratio 0 p else 0) + ratio 0 t == 0)%Q) by (destruct (0 <? p); rewrite ?Z0; ring).
    replace (Qle_bool _ 0) with true; [rewrite Z0; reflexivity|]. symmetry. apply Qle_bool_iff. rewrite D. apply Qle_refl.
  - replace (0 <? p) with true by lia.
    assert (Qp : ~ (inject_Z p == 0)%Q) by (change 0%Q with (inject_Z 0); rewrite inject_Z_injective; lia).
    assert (Qh : ~ (inject_Z tp == 0)%Q) by (change 0%Q with (inject_Z 0); rewrite inject_Z_injective; lia).
    destruct (Qle_bool (ratio tp p + ratio tp t) 0) eqn:E.
    + exfalso. apply Qle_bool_iff in E. apply (Qlt_not_le 0 (ratio tp p + ratio tp t)); [|exact E].
      assert (P : forall x, 0 < x -> (0 < ratio tp x)%Q).
      { intros x Hx. unfold ratio. apply Qlt_shift_div_l; [change 0%Q with (inject_Z 0); rewrite <- Zlt_Qlt; exact Hx|].
        rewrite Qmult_0_l. change 0%Q with (inject_Z 0). rewrite <- Zlt_Qlt. lia. }
      setoid_replace 0%Q with (0 + 0)%Q by ring. apply Qplus_lt_le_compat; [apply P; lia|apply Qlt_le_weak, P; lia].
    + unfold ratio. rewrite inject_Z_mult, inject_Z_plus. change (inject_Z 2) with 2%Q. field.
      repeat split; try assumption. 
      setoid_replace (inject_Z tp * inject_Z t + inject_Z tp * inject_Z p)%Q with (inject_Z tp * (inject_Z t + inject_Z p))%Q by ring.
      intros Hz. apply Qmult_integral in Hz. destruct Hz; contradiction.
Qed.
Lemma macro_spec y p : List.length y = List.length p -> y <> [] ->
  exists x, macro_f1 y p = Some x /\ (x == Qmean (map (f1 (combine y p)) (uniqueZ y)))%Q.
Proof.
  intros Hl Hy. unfold macro_f1. destruct y as [|a l] eqn:Ey; [congruence|]. rewrite <- Ey in *.
  rewrite (true_counts y p Hl), (tp_counts y p Hl), (pred_counts y p Hl). eexists. split; [reflexivity|].
  assert (Hpos : forall c, In c (uniqueZ y) -> 0 < truly c (combine y p)) by (intros c Hc; apply truly_pos, (cs_classes y p Hl), Hc).
  rewrite (divide_map _ (fun c => truly c (combine y p))) by exact Hpos. rewrite divide_map0.
  assert (E : map f1_score (combine (map (fun c => if 0 <? predicted c (combine y p) then ratio (hits c (combine y p)) (predicted c (combine y p)) else 0%Q) (uniqueZ y))
            (map (fun c => ratio (hits c (combine y p)) (truly c (combine y p))) (uniqueZ y))) =
          map (fun c => f1_score ((if 0 <? predicted c (combine y p) then ratio (hits c (combine y p)) (predicted c (combine y p)) else 0%Q), ratio (hits c (combine y p)) (truly c (combine y p)))) (uniqueZ y)).
  { generalize (uniqueZ y). intros cs. induction cs as [|c cs IH]; [reflexivity|]. cbn. f_equal. exact IH. }
  rewrite E. apply Qmean_ext. intros c Hc. unfold f1. pose proof (hits_le c (combine y p)) as (A & B & C).
  apply f1_identity; [lia|exact C|apply Hpos, Hc].
Qed.

(* any list of the classes gives the same average *)
Lemma classes_perm s cs cs' : classes_of s cs -> classes_of s cs' -> Permutation cs cs'.
Proof. intros [H1 H2] [H3 H4]. apply NoDup_Permutation; auto. intros c. rewrite H2, H4. reflexivity. Qed.
Lemma mean_classes s cs cs' (F : Z -> Q) : classes_of s cs -> classes_of s cs' -> (Qmean (map F cs) == Qmean (map F cs'))%Q.
Proof. intros H1 H2. apply Qmean_perm, Permutation_map. eapply classes_perm; eassumption. Qed.

Lemma recall_range s c : 0 < truly c s -> (0 <= recall s c <= 1)%Q.
Proof. intros H. apply ratio_range; [|exact H]. pose proof (hits_le c s). lia. Qed.
Lemma f1_range s c : 0 < truly c s -> (0 <= f1 s c <= 1)%Q.
Proof. intros H. pose proof (hits_le c s). unfold f1. apply ratio_range; lia. Qed.
Lemma recall_one s c : 0 < truly c s -> (recall s c == 1 <-> forall b, In (c, b) s -> b = c)%Q.
Proof. intros H. unfold recall. rewrite ratio_one by exact H. apply hits_all. Qed.
Lemma f1_one_right s c : 0 < truly c s -> (f1 s c == 1)%Q -> forall b, In (c, b) s -> b = c.
Proof. intros H E. pose proof (hits_le c s). unfold f1 in E. rewrite ratio_one in E by lia. apply hits_all. lia. Qed.
Lemma all_right_predicted s c : all_right s -> predicted c s = truly c s.
Proof.
  unfold all_right, predicted, truly, how_many, lenZ. induction s as [|[a b] s IH]; intros H; [reflexivity|]. cbn.
  assert (a = b) by (apply H; left; reflexivity). subst.
  specialize (IH (fun a b Hab => H a b (or_intror Hab))). destruct (b =? c); cbn; lia.
Qed.
Lemma right_by_class s cs : classes_of s cs -> (all_right s <-> forall c, In c cs -> forall b, In (c, b) s -> b = c).
Proof.
  intros [_ Hc]. split.
  - intros H c _ b Hb. symmetry. apply H, Hb.
  - intros H a b Hab. symmetry. apply (H a); [apply Hc; eauto|exact Hab].
Qed.

Lemma combine_permute (y p y' p' : list Z) : List.length y = List.length p -> List.length y' = List.length p' ->
  Permutation (combine y p) (combine y' p') -> Permutation y y'.
Proof.
  intros H1 H2 H. rewrite <- (fst_combine y p H1), <- (fst_combine y' p' H2). apply Permutation_map, H.
Qed.
Lemma how_many_perm f s s' : Permutation s s' -> how_many f s = how_many f s'.
Proof. intros H. unfold how_many. apply lenZ_perm, Permutation_filter, H. Qed.
Lemma unique_perm a b : Permutation a b -> uniqueZ a = uniqueZ b.
Proof.
  intros H. apply ascending_ext; try apply uniqueZ_ascending. intros x. rewrite !uniqueZ_In. apply perm_In, H.
Qed.

(* injective renaming of the labels *)
Section Rename.
Variable f : Z -> Z.
Hypothesis Hf : forall a b, f a = f b -> a = b.
Definition ren (s : pairs) : pairs := map (fun p => (f (fst p), f (snd p))) s.
Lemma feq a b : (f a =? f b) = (a =? b).
Proof. destruct (Z.eqb_spec a b) as [->|N]; [apply Z.eqb_refl|]. destruct (Z.eqb_spec (f a) (f b)) as [E|]; [apply Hf in E; contradiction|reflexivity]. Qed.
Lemma how_many_ren g g' s : (forall a b, g (f a, f b) = g' (a, b)) -> how_many g (ren s) = how_many g' s.
Proof.
  intros H. unfold how_many, lenZ, ren. induction s as [|[a b] s IH]; [reflexivity|]. cbn. rewrite H. destruct (g' (a, b)); cbn; lia.
Qed.
Lemma hits_ren c s : hits (f c) (ren s) = hits c s.
Proof. apply how_many_ren. intros a b. cbn. rewrite !feq. reflexivity. Qed.
Lemma truly_ren c s : truly (f c) (ren s) = truly c s.
Proof. apply how_many_ren. intros a b. cbn. apply feq. Qed.
Lemma predicted_ren c s : predicted (f c) (ren s) = predicted c s.
Proof. apply how_many_ren. intros a b. cbn. apply feq. Qed.
Lemma classes_ren s cs : classes_of s cs -> classes_of (ren s) (map f cs).
Proof.
  intros [H1 H2]. split.
  - apply FinFun.Injective_map_NoDup; [exact Hf|exact H1].
  - intros c. rewrite in_map_iff. unfold ren. split.
    + intros (d & <- & Hd). apply H2 in Hd. destruct Hd as [q Hq]. exists (f q). apply in_map_iff. exists (d, q). auto.
    + intros [q Hq]. apply in_map_iff in Hq. destruct Hq as ([a b] & [= <- <-] & Hab). exists a. split; [reflexivity|]. apply H2. eauto.
Qed.
Lemma ren_combine y p : combine (map f y) (map f p) = ren (combine y p).
Proof. revert p. induction y as [|a y IH]; intros [|b p]; try reflexivity. cbn. f_equal. apply IH. Qed.
End Rename.

(* ---------------------------------------------------------------- argmax *)
Lemma argmax_from_spec l : forall pre b best, (best < List.length pre)%nat -> first_max pre best -> nth best pre 0%Q = b ->
  exists i, argmax_from (lenZ pre) (Z.of_nat best) b l = Z.of_nat i /\ first_max (pre ++ l) i.
Proof.
  induction l as [|x l IH]; intros pre b best Hb Hm E; cbn [argmax_from].
  - exists best. rewrite app_nil_r. auto.
  - assert (El : lenZ pre + 1 = lenZ (pre ++ [x])) by (unfold lenZ; rewrite app_length; cbn; lia).
    replace (pre ++ x :: l) with ((pre ++ [x]) ++ l) by (rewrite <- app_assoc; reflexivity). rewrite El.
    destruct Hm as (M1 & M2 & M3).
    assert (N1 : forall j, (j < List.length pre)%nat -> nth j (pre ++ [x]) 0%Q = nth j pre 0%Q) by (intros j Hj; apply app_nth1, Hj).
    assert (N2 : nth (List.length pre) (pre ++ [x]) 0%Q = x) by (rewrite app_nth2, Nat.sub_diag by lia; reflexivity).
    destruct (Qle_bool x b) eqn:Ex.
    + apply Qle_bool_iff in Ex. apply IH; [rewrite app_length; lia| |rewrite N1 by exact Hb; exact E].
      split; [rewrite app_length; lia|]. split.
      * intros j Hj. rewrite app_length in Hj. cbn in Hj. rewrite (N1 best Hb). destruct (Nat.eq_dec j (List.length pre)) as [->|Hn].
        -- rewrite N2, E. exact Ex.
        -- rewrite N1 by lia. apply M2. lia.
      * intros j Hj. rewrite (N1 best Hb), N1 by lia. apply M3, Hj.
    + assert (Hlt : (b < x)%Q). { apply Qnot_le_lt. intros H. apply Qle_bool_iff in H. congruence. }
      replace (lenZ pre) with (Z.of_nat (List.length pre)) by reflexivity.
      apply IH; [rewrite app_length; cbn; lia| |exact N2].
      split; [rewrite app_length; cbn; lia|]. rewrite N2. split.
      * intros j Hj. rewrite app_length in Hj. cbn in Hj. destruct (Nat.eq_dec j (List.length pre)) as [->|Hn]; [rewrite N2; apply Qle_refl|].
        rewrite N1 by lia. eapply Qle_trans; [apply M2; lia|]. rewrite E. apply Qlt_le_weak, Hlt.
      * intros j Hj. rewrite N1 by lia. eapply Qle_lt_trans; [apply M2; lia|]. rewrite E. exact Hlt.
Qed.
Lemma argmax_spec row i : argmax row = Ok i <-> exists j, i = Z.of_nat j /\ first_max row j.
Proof.
  assert (U : forall j k, first_max row j -> first_max row k -> j = k).
  { intros j k (A1 & A2 & A3) (B1 & B2 & B3). destruct (Nat.lt_trichotomy j k) as [H|[H|H]]; [exfalso|exact H|exfalso].
    - apply (Qlt_not_le _ _ (B3 j H)). apply A2. exact B1.
    - apply (Qlt_not_le _ _ (A3 k H)). apply B2. exact A1. }
  destruct row as [|x r].
  - cbn. split; [discriminate|]. intros (j & _ & H & _). cbn in H. lia.
  - cbn [argmax]. destruct (argmax_from_spec r [x] x 0) as (k & Ek & Hk); [cbn; lia| |reflexivity|].
    + split; [cbn; lia|]. split; [intros [|j] Hj; [apply Qle_refl|cbn in Hj; lia]|lia].
    + change (lenZ [x]) with 1 in Ek. change (Z.of_nat 0) with 0 in Ek. rewrite Ek. cbn [app] in Hk. split.
      * intros [= <-]. exists k. auto.
      * intros (j & -> & Hj). f_equal. f_equal. apply U; assumption.
Qed.
Lemma argmax_rows_spec rows l : argmax_rows rows = Ok l <-> Forall2 (fun row i => argmax row = Ok i) rows l.
Proof.
  revert l. induction rows as [|r rows IH]; intros l; cbn.
  - split; [intros [= <-]; constructor|]. intros H. inversion H. reflexivity.
  - split.
    + intros H. inv_bind H. inv_bind H. injection H as <-. constructor; [exact E|apply IH; exact E0].
    + intros H. inversion H as [|? i ? t H1 H2]; subst. rewrite H1. cbn. apply IH in H2. rewrite H2. reflexivity.
Qed.

(* ---------------------------------------------------------------- compute_metrics *)
Lemma put_find (d : scores) k v k' : find (fun e => String.eqb (fst e) k') (put d k v) =
  if String.eqb k k' then Some (k, v) else find (fun e => String.eqb (fst e) k') d.
Proof.
  induction d as [|[a w] d IH]; cbn [put find fst].
  - destruct (String.eqb k k'); reflexivity.
  - destruct (String.eqb_spec a k) as [->|Na]; cbn [find fst].
    + destruct (String.eqb_spec k k'); reflexivity.
    + rewrite IH. destruct (String.eqb_spec a k') as [->|]; [|reflexivity].
      destruct (String.eqb_spec k k'); congruence.
Qed.
Lemma put_keys (d : scores) k v : NoDup (map fst d) -> NoDup (map fst (put d k v)) /\ forall x, In x (map fst (put d k v)) <-> x = k \/ In x (map fst d).
Proof.
  induction d as [|[a w] d IH]; cbn; intros H; [split; [repeat constructor; intros []|intuition congruence]|].
  inversion_clear H as [|? ? Hn Hd]. destruct (String.eqb_spec a k) as [->|Na]; cbn.
  - split; [constructor; assumption|]. intuition congruence.
  - destruct (IH Hd) as [I1 I2]. split.
    + constructor; [|exact I1]. rewrite I2. intuition congruence.
    + intros x. rewrite I2. intuition congruence.
Qed.
Lemma compute_from_spec y p names : forall out, NoDup (map fst out) ->
  ((exists r, compute_from y p names out = Ok r) <-> Forall (fun n => metric_fn n <> None) names) /\
  (forall r, compute_from y p names out = Ok r -> NoDup (map fst r) /\
    (forall n, In n (map fst r) <-> In n names \/ In n (map fst out)) /\
    (forall n v, In (n, v) r -> (exists f, metric_fn n = Some f /\ v = f y p /\ In n names) \/ (In (n, v) out /\ ~ In n names))).
Proof.
  induction names as [|m names IH]; intros out Hn; cbn [compute_from].
  - split; [split; [constructor|eauto]|]. intros r [= <-]. split; [exact Hn|]. split; [intros n; cbn; tauto|]. intros n v Hin. right. cbn. tauto.
  - destruct (metric_fn m) as [f|] eqn:Em.
    + destruct (put_keys out m (f y p) Hn) as [P1 P2]. destruct (IH (put out m (f y p)) P1) as [I1 I2]. split.
      * rewrite I1. split; intros H; [constructor; [congruence|exact H]|inversion H; assumption].
      * intros r E. destruct (I2 r E) as (A & B & C). split; [exact A|]. split.
        -- intros n. rewrite B, P2. cbn. intuition congruence.
        -- intros n v Hin. destruct (C n v Hin) as [(g & G1 & G2 & G3)|[G1 G2]].
           ++ left. exists g. cbn. auto.
           ++ assert (Hp : n = m /\ v = f y p \/ (In (n, v) out /\ n <> m)).
              { clear - G1 Hn. induction out as [|[a w] d IH]; cbn in G1.
                - destruct G1 as [[= <- <-]|[]]. auto.
                - cbn in Hn. inversion_clear Hn as [|? ? Hna Hd]. destruct (String.eqb_spec a m) as [->|Na].
                  + destruct G1 as [[= <- <-]|G1]; [auto|]. right. split; [right; exact G1|]. intros ->. apply Hna. apply (in_map fst) in G1. exact G1.
                  + destruct G1 as [[= <- <-]|G1]; [right; split; [left; reflexivity|exact Na]|]. destruct (IH Hd G1) as [H|[H1 H2]]; [auto|]. right. split; [right; exact H1|exact H2]. }
              destruct Hp as [[-> ->]|[Hp1 Hp2]]; [left; exists f; cbn; auto|right]. split; [exact Hp1|]. cbn. intuition congruence.
    + split; [|discriminate]. split; [intros [r H]; discriminate|]. intros H. inversion H. congruence.
Qed.
