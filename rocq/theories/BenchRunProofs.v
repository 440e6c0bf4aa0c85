From Coq Require Import String Ascii SpecFloat ZifyBool ZifyNat.
From Verif Require Import Prelude ListFacts FloatModel PyValue DecString SampleServiceProofs HpoModel HpoSpec HpoProofs LimitsModel BenchRunModel BenchRunSpec.
Local Open Scope string_scope.
Local Open Scope Z_scope.
Local Open Scope list_scope.
Local Notation length := List.length.

(* ------------------------------------------------------------------ targets *)
Definition good (p : list string) : Prop := in_method_params p.
Lemma target_path_ok p : target_path p = Ok tt <-> good p.
Proof.
  unfold good, in_method_params. destruct p as [|a [|b [|k r]]]; cbn; try (split; [discriminate|intros (? & ? & E); discriminate]).
  destruct (String.eqb_spec a "method") as [->|], (String.eqb_spec b "params") as [->|]; cbn.
  - split; [intros _; eauto|reflexivity].
  - split; [discriminate|intros (? & ? & [=])]; congruence.
  - split; [discriminate|intros (? & ? & [=])]; congruence.
  - split; [discriminate|intros (? & ? & [=])]; congruence.
Qed.
Lemma target_path_err p e : target_path p = Err e -> e = BenchError.
Proof. destruct p as [|a [|b [|k r]]]; cbn; try congruence. destruct (_ && _); congruence. Qed.

Definition check_items := fix go (path : list string) (d : list (string * pyval)) : result unit :=
  match d with
  | [] => Ok tt
  | (k, w) :: r => if String.eqb k "" then Err BenchError else do _ <- check_targets w (path ++ [k]); go path r
  end.
Lemma check_dict x d path : check_targets (PDict (x :: d)) path =
  if memS "dist" (keys (x :: d)) then target_path path else check_items path (x :: d).
Proof.
  assert (H : forall l, (fix go (d : list (string * pyval)) : result unit := match d with [] => Ok tt
       | (k, w) :: r => if String.eqb k "" then Err BenchError else do _ <- check_targets w (path ++ [k]); go r end) l = check_items path l).
  { induction l as [|[k w] l IH]; [reflexivity|]. cbn [check_items]. rewrite <- IH. reflexivity. }
  rewrite <- (H (x :: d)). reflexivity.
Qed.
Lemma check_items_ok path d : check_items path d = Ok tt <-> forall k w, In (k, w) d -> k <> "" /\ check_targets w (path ++ [k]) = Ok tt.
Proof.
  induction d as [|[k w] d IH]; cbn [check_items]; [split; [intros _ ? ? []|reflexivity]|].
  destruct (String.eqb_spec k "") as [->|Hk].
  - split; [discriminate|]. intros H. exfalso. apply (proj1 (H "" w (or_introl eq_refl))). reflexivity.
  - split.
    + intros E. apply bind_ok in E. destruct E as ([] & E & E'). intros k' w' [[= <- <-]|H]; [auto|apply IH; assumption].
    + intros H. destruct (H k w (or_introl eq_refl)) as [_ E]. rewrite E. cbn. apply IH. intros k' w' H'. apply H. right. exact H'.
Qed.
Lemma dist_key d : memS "dist" (keys d) = false <-> lookup d "dist" = None.
Proof.
  rewrite lookup_none_iff. unfold memS, keys. split.
  - intros H X. rewrite <- not_true_iff_false, existsb_exists in H. apply H. exists "dist". split; [exact X|reflexivity].
  - intros H. apply not_true_is_false. rewrite existsb_exists. intros (x & Hx & E). apply String.eqb_eq in E. subst x. contradiction.
Qed.

Lemma valid_dist_nonempty o d spec : valid_dist o d spec -> lookup d "dist" <> None.
Proof. intros H. assert (exists n, says o d n) as (n & v & E & _) by (destruct H; eauto). congruence. Qed.

Lemma check_spec o v : unique_keys v -> valid_space o v -> forall path,
  (check_targets v path = Ok tt <-> forall p x, declares o v p x -> good (path ++ p)).
Proof.
  induction v as [l _|d IH|v H1 H2] using pyval_ind'; intros U V path.
  - inversion V as [l' Hl| |]; subst. destruct l as [|a l]; [congruence|]. cbn [check_targets]. rewrite target_path_ok. split.
    + intros G p x D. inversion D; subst. rewrite app_nil_r. exact G.
    + intros G. specialize (G [] _ (de_list o (a :: l) Hl)). rewrite app_nil_r in G. exact G.
  - destruct d as [|x0 d]; [inversion V; subst; [exfalso; eapply valid_dist_nonempty; [eassumption|reflexivity]|congruence]|].
    rewrite check_dict. destruct (memS "dist" (keys (x0 :: d))) eqn:Ed.
    + assert (Ld : lookup (x0 :: d) "dist" <> None) by (intros X; apply dist_key in X; congruence).
      inversion V as [|d' spec Hs|d' Hn Hl Hc]; subst; [|congruence]. rewrite target_path_ok. split.
      * intros G p x D. inversion D; subst; [rewrite app_nil_r; exact G|congruence].
      * intros G. specialize (G [] _ (de_dist o _ spec Hs)). rewrite app_nil_r in G. exact G.
    + assert (Ld : lookup (x0 :: d) "dist" = None) by (apply dist_key; exact Ed).
      inversion V as [|d' spec Hs|d' Hn Hl Hc]; subst; [exfalso; eapply valid_dist_nonempty; eassumption|].
      rewrite check_items_ok. rewrite Forall_forall in IH. pose proof (uk_nodup _ U) as Nd. split.
      * intros G p x D. inversion D as [|? spec Hs|? k w p' x' _ Lk Dk]; subst; [exfalso; eapply valid_dist_nonempty; eassumption|].
        destruct (G k w (lookup_in _ _ _ Lk)) as [_ Gk]. destruct (Hc k w Lk) as [_ Vk].
        rewrite (IH (k, w) (lookup_in _ _ _ Lk) (uk_child _ _ _ U Lk) Vk) in Gk. specialize (Gk _ _ Dk). rewrite <- app_assoc in Gk. exact Gk.
      * intros G k w Hin. apply lookup_some_iff in Hin; [|exact Nd]. destruct (Hc k w Hin) as [Hk Vk]. split; [exact Hk|].
        apply (IH (k, w) (lookup_in _ _ _ Hin) (uk_child _ _ _ U Hin) Vk). intros p x D. rewrite <- app_assoc. cbn. apply (G (k :: p) x).
        eapply de_key; eassumption.
  - exfalso. inversion V; subst; [eapply H2; reflexivity|eapply H1; reflexivity|eapply H1; reflexivity].
Qed.
Lemma check_err v : forall path e, check_targets v path = Err e -> e = BenchError.
Proof.
  induction v as [l _|d IH|v H1 H2] using pyval_ind'; intros path e E.
  - destruct l; cbn in E; [congruence|apply target_path_err in E; exact E].
  - destruct d as [|x0 d]; [cbn in E; congruence|]. rewrite check_dict in E. destruct (memS _ _); [apply target_path_err in E; exact E|].
    revert E. generalize dependent (x0 :: d). intros l IH. induction l as [|[k w] l IHl]; cbn [check_items]; [discriminate|].
    inversion_clear IH as [|? ? Hw Hr]. destruct (String.eqb k ""); [congruence|].
    destruct (check_targets w (path ++ [k])) as [[]|e'] eqn:Ew; cbn; [apply IHl, Hr|]. intros [= <-]. eapply Hw, Ew.
  - destruct v; cbn in E; try congruence; [exfalso; eapply H2; reflexivity|exfalso; eapply H1; reflexivity].
Qed.

(* ------------------------------------------------------------------ trials *)
Lemma dset_In {A} (d : list (string * A)) k v x : In x (dset d k v) -> x = (k, v) \/ In x d.
Proof.
  induction d as [|[a w] d IH]; cbn; [intros [<-|[]]; auto|]. destruct (String.eqb a k) eqn:E; cbn.
  - apply String.eqb_eq in E. subst a. intros [<-|H]; auto.
  - intros [<-|H]; [auto|]. destruct (IH H); auto.
Qed.
Lemma dset_uk d k v : unique_keys (PDict d) -> unique_keys v -> unique_keys (PDict (dset d k v)).
Proof.
  intros U V. apply uk_dict; [apply dset_nodup, uk_nodup, U|]. apply Forall_forall. intros x Hx. apply dset_In in Hx.
  destruct Hx as [->|Hx]; [exact V|]. pose proof (uk_items _ U) as F. rewrite Forall_forall in F. apply F, Hx.
Qed.
Lemma nil_uk : unique_keys (PDict []).
Proof. apply uk_dict; constructor. Qed.
Lemma assign_uk p : forall d v d', unique_keys (PDict d) -> unique_keys v -> assign d p v = Ok d' -> unique_keys (PDict d').
Proof.
  induction p as [|k p IH]; intros d v d' U V E; [discriminate|]. destruct p as [|k2 p].
  - cbn in E. injection E as <-. apply dset_uk; assumption.
  - change (assign d (k :: k2 :: p) v) with
      (match lookup d k with None => do x <- assign [] (k2 :: p) v; Ok (dset d k (PDict x))
       | Some (PDict b) => do x <- assign b (k2 :: p) v; Ok (dset d k (PDict x)) | Some _ => Err TypeError end) in E.
    destruct (lookup d k) as [w|] eqn:L; [destruct w; try discriminate|]; apply bind_ok in E; destruct E as (x & Ex & E); injection E as <-;
      (apply dset_uk; [exact U|]); refine (IH _ v x _ V Ex); [eapply uk_child; eassumption|apply nil_uk].
Qed.
Lemma assign_all_uk ls : forall vs d d', unique_keys (PDict d) -> Forall unique_keys vs -> assign_all d ls vs = Ok d' -> unique_keys (PDict d').
Proof.
  induction ls as [|l ls IH]; intros [|v vs] d d' U F E; cbn in E; try (injection E as <-; exact U).
  apply bind_ok in E. destruct E as (d1 & E1 & E). inversion_clear F. eapply IH; [eapply assign_uk; eassumption|eassumption|exact E].
Qed.

Lemma uk_elems l : unique_keys (PList l) -> Forall unique_keys l.
Proof. intros U. inversion U as [|l' F|v _ H]; subst; [exact F|exfalso; eapply H; reflexivity]. Qed.
Lemma declares_uk o v p x : declares o v p x -> unique_keys v -> forall vs, candidates x = Some vs -> Forall unique_keys vs.
Proof.
  induction 1 as [l Hl|d spec Hs|d k v p x L Lk D IH]; intros U vs E.
  - injection E as <-. apply uk_elems, U.
  - destruct spec; try discriminate. injection E as <-. inversion Hs; subst. 
    apply uk_elems. eapply uk_child; [exact U|]. eassumption.
  - apply IH; [eapply uk_child; eassumption|exact E].
Qed.
Lemma grids_inv ls : forall gs, grids ls = Ok gs -> Forall2 (fun l vs => lf_values l = Some vs) ls gs.
Proof.
  induction ls as [|l ls IH]; intros gs E; cbn in E; [injection E as <-; constructor|].
  destruct (lf_values l) as [vs|] eqn:El; [|discriminate]. apply bind_ok in E. destruct E as (t & Et & E). injection E as <-. constructor; auto.
Qed.
Lemma product_inv gs : forall c, In c (product gs) -> Forall2 (fun v vs => In v vs) c gs.
Proof.
  induction gs as [|vs gs IH]; intros c H; cbn in H; [destruct H as [<-|[]]; constructor|].
  apply in_flat_map in H. destruct H as (v & Hv & H). apply in_map_iff in H. destruct H as (r & <- & Hr). constructor; auto.
Qed.
Lemma number_inv sort ls combos : forall i ts, number sort ls i combos = Ok ts ->
  Forall (fun t => exists c, In c combos /\ assign_all [] ls c = Ok (t_patch t)) ts /\ map t_index ts = map (fun k => i + Z.of_nat k) (seq 0 (length ts)).
Proof.
  induction combos as [|c combos IH]; intros i ts E; cbn in E; [injection E as <-; split; [constructor|reflexivity]|].
  apply bind_ok in E. destruct E as (p & Ep & E). apply bind_ok in E. destruct E as (t & Et & E). injection E as <-.
  destruct (IH _ _ Et) as [F N]. split.
  - constructor; [exists c; split; [left; reflexivity|exact Ep]|]. eapply Forall_impl; [|exact F]. intros a (c' & H & H'). exists c'. split; [right; exact H|exact H'].
  - cbn [map length seq t_index]. f_equal; [lia|]. rewrite N, <- seq_shift, map_map. apply map_ext. intros k. lia.
Qed.
Lemma sample_values_uk {S} (R : Rng S) vs s v s' : Forall unique_keys vs -> sample_from_values R vs s = Ok (v, s') -> unique_keys v.
Proof.
  intros F. unfold sample_from_values. destruct vs as [|a l]; [discriminate|]. destruct (r_int R s 0 (lenZ (a :: l))) as [i s1]. intros E.
  assert (Ev : v = nth (Z.to_nat i) (a :: l) PNone) by congruence. rewrite Ev. destruct (nth_in_or_default (Z.to_nat i) (a :: l) PNone) as [H|H].
  - rewrite Forall_forall in F. apply F, H.
  - rewrite H. apply uk_other; discriminate.
Qed.
Lemma sample_leaf_uk {S} (R : Rng S) l s v s' : (forall vs, lf_values l = Some vs -> Forall unique_keys vs) ->
  (forall vs, lf_dist l = Some (Choice vs) -> Forall unique_keys vs) -> sample_leaf R l s = Ok (v, s') -> unique_keys v.
Proof.
  intros Hv Hd. unfold sample_leaf. destruct (lf_dist l) as [[a b|a b|a b|vs]|]; cbn [sample_distribution].
  - destruct (r_uniform R s a b) as [r s1]. intros E. apply bind_ok in E. destruct E as (x & _ & E). injection E as <- _. apply uk_other; discriminate.
  - intros E. apply bind_ok in E. destruct E as (x & _ & E). apply bind_ok in E. destruct E as (y & _ & E). destruct (r_uniform R s x y) as [r s1].
    apply bind_ok in E. destruct E as (z & _ & E). apply bind_ok in E. destruct E as (u & _ & E). injection E as <- _. apply uk_other; discriminate.
  - destruct (r_int R s a b) as [z s1]. intros [= <- _]. apply uk_other; discriminate.
  - apply sample_values_uk, Hd. reflexivity.
  - apply sample_values_uk. destruct (lf_values l); [apply Hv; reflexivity|constructor].
Qed.
Lemma random_inv {S} sort (R : Rng S) ls n : forall i s ts, random_trials sort R ls i n s = Ok ts ->
  Forall (fun t => exists s1 s2, sample_leaves R ls [] s1 = Ok (t_patch t, s2)) ts /\ map t_index ts = map (fun k => i + Z.of_nat k) (seq 0 (length ts)).
Proof.
  induction n as [|n IH]; intros i s ts E; cbn in E; [injection E as <-; split; [constructor|reflexivity]|].
  apply bind_ok in E. destruct E as ([p s1] & Ep & E). apply bind_ok in E. destruct E as (t & Et & E). injection E as <-.
  destruct (IH _ _ _ Et) as [F N]. split.
  - constructor; [exists s, s1; exact Ep|exact F].
  - cbn [map length seq t_index]. f_equal; [lia|]. rewrite N, <- seq_shift, map_map. apply map_ext. intros k. lia.
Qed.

(* what every trial is *)
Lemma trials_shape {S} sort o (R : Rng S) kind space ts : sorts sort -> unique_keys (PDict space) -> search_trials sort o R kind space = Ok ts ->
  (forall p x, declares o (PDict space) p x -> good p) /\
  NoDup (map t_index ts) /\
  Forall (fun t => unique_keys (PDict (t_patch t)) /\
    exists values, holds (t_patch t) values /\ forall p, In p (map fst values) <-> exists x, declares o (PDict space) p x) ts.
Proof.
  intros Hs U E. unfold search_trials in E. apply bind_ok in E. destruct E as ([] & Ec & E). apply bind_ok in E. destruct E as (ls & Els & E).
  destruct (proj1 (from_dict_accepts sort Hs o space U) (ex_intro _ ls Els)) as [V Ld].
  split; [apply (proj1 (check_spec o (PDict space) U V []) Ec)|].
  destruct (from_dict_spec sort Hs o space ls U Els) as (H1 & H2 & H3 & H4 & H5).
  assert (Vals : forall l, In l ls -> (forall vs, lf_values l = Some vs -> Forall unique_keys vs) /\ (forall vs, lf_dist l = Some (Choice vs) -> Forall unique_keys vs)).
  { intros l Hl. assert (D : declares o (PDict space) (lf_path l) (param_of l)) by (apply H1; eauto). split; intros vs Ev.
    - eapply declares_uk; [exact D|exact U|]. rewrite <- (H2 l Hl). exact Ev.
    - eapply declares_uk; [exact D|exact U|]. unfold param_of. rewrite Ev. reflexivity. }
  assert (G : (forall t, In t ts -> exists vs, length vs = length ls /\ Forall unique_keys vs /\ assign_all [] ls vs = Ok (t_patch t)) /\
              exists i, map t_index ts = map (fun k => i + Z.of_nat k) (seq 0 (length ts))).
  { destruct kind as [|seed n].
    - unfold iter_grid in E. apply bind_ok in E. destruct E as (gs & Eg & E). destruct (number_inv _ _ _ _ _ E) as [F N]. split; [|eauto].
      intros t Ht. rewrite Forall_forall in F. destruct (F t Ht) as (c & Hc & Ea). exists c. apply grids_inv in Eg. apply product_inv in Hc.
      assert (Lc : length c = length gs) by (clear - Hc; induction Hc; cbn; congruence).
      assert (Lg : length ls = length gs) by (clear - Eg; induction Eg; cbn; congruence).
      split; [congruence|]. split; [|exact Ea].
      apply Forall_forall. intros v Hv. apply In_nth_error in Hv. destruct Hv as (i & Hi).
      assert (exists vs, nth_error gs i = Some vs /\ In v vs) as (vs & Hvs & Hin).
      { clear - Hc Hi. revert i Hi. induction Hc; intros [|i] Hi; cbn in *; try discriminate; [injection Hi as <-; eauto|eauto]. }
      assert (exists l, In l ls /\ lf_values l = Some vs) as (l & Hl & El).
      { clear - Eg Hvs. revert i Hvs. induction Eg; intros [|i] Hi; cbn in *; try discriminate; [injection Hi as <-; eauto|]. destruct (IHEg i Hi) as (l0 & A & B). eauto. }
      destruct (Vals l Hl) as [X _]. specialize (X vs El). rewrite Forall_forall in X. apply X, Hin.
    - unfold iter_random in E. destruct (Z.leb_spec n 0); [discriminate|]. destruct (random_inv _ _ _ _ _ _ _ E) as [F N]. split; [|eauto].
      intros t Ht. rewrite Forall_forall in F. destruct (F t Ht) as (s1 & s2 & Ea). apply sample_leaves_split in Ea. destruct Ea as (vs & L & A & F2).
      exists vs. split; [exact L|]. split; [|exact A]. clear - F2 Vals. induction F2 as [|l v ls vs (s1 & s2 & Es) F2 IH]; [constructor|]. constructor.
      + destruct (Vals l (or_introl eq_refl)). eapply sample_leaf_uk; eassumption.
      + apply IH. intros l' H'. apply Vals. right. exact H'. }
  destruct G as [G (i & N)]. split.
  - rewrite N. apply FinFun.Injective_map_NoDup; [intros a b Hab; lia|apply seq_NoDup].
  - apply Forall_forall. intros t Ht. destruct (G t Ht) as (vs & L & F & A). split; [eapply assign_all_uk; [apply nil_uk|exact F|exact A]|].
    destruct (assign_leaves ls vs H3 H4 H5 L) as (d & Ed & Hd). assert (d = t_patch t) by congruence. subst d.
    exists (combine (map lf_path ls) vs). split; [exact Hd|].
    assert (Hfst : map fst (combine (map lf_path ls) vs) = map lf_path ls).
    { clear - L. revert vs L. induction ls as [|l ls IH]; intros [|v vs] L; cbn in *; try discriminate; [reflexivity|]. f_equal. apply IH. lia. }
    intros p. rewrite Hfst, in_map_iff. split.
    + intros (l & <- & Hl). exists (param_of l). apply H1. eauto.
    + intros (x & Dx). apply H1 in Dx. destruct Dx as (l & Hl & E1 & _). eauto.
Qed.

Lemma merge_frame p : forall base patch, unique_keys (PDict patch) -> get_path (PDict patch) p = None ->
  (forall q r, p = q ++ r -> match get_path (PDict patch) q with Some (PDict _) | None => True | _ => False end) ->
  get_path (PDict (deep_merge base patch)) p = get_path (PDict base) p.
Proof.
  induction p as [|k r IH]; intros base patch U N H; [discriminate|]. cbn [get_path] in *. rewrite lookup_merge by (apply uk_nodup, U).
  destruct (lookup patch k) as [w|] eqn:L; [|reflexivity].
  assert (exists q, w = PDict q) as (q & ->).
  { specialize (H [k] r eq_refl). cbn [get_path] in H. rewrite L in H. destruct w; try contradiction. eauto. }
  destruct r as [|k2 r]; [discriminate|].
  assert (G : (exists b, lookup base k = Some (PDict b)) \/ forall b, lookup base k <> Some (PDict b)).
  { destruct (lookup base k) as [[]|]; try (right; congruence). left. eauto. }
  destruct G as [(b & Lb)|Nb].
  - rewrite Lb, merge_into_dict. apply IH; [eapply uk_child; eassumption|exact N|]. intros q1 r1 E. specialize (H (k :: q1) r1).
    cbn [get_path] in H. rewrite L in H. apply H. cbn. congruence.
  - rewrite merge_into_other by (left; exact Nb). rewrite N. destruct (lookup base k) as [[]|]; try reflexivity. exfalso. eapply Nb. reflexivity.
Qed.
Lemma get_path_under p q v w : get_path v (p ++ q) = Some w -> q <> [] -> exists d, get_path v p = Some (PDict d).
Proof. rewrite get_path_app. destruct (get_path v p) as [x|]; [|discriminate]. destruct q; [congruence|]. destruct x; try discriminate. eauto. Qed.
Lemma trial_frame patch base values p : unique_keys (PDict patch) -> holds patch values -> (forall q, In q (map fst values) -> ~ comparable q p) ->
  (values = [] -> p <> []) ->
  get_path (PDict (deep_merge base patch)) p = get_path (PDict base) p.
Proof.
  intros U [H1 H2] N Np.
  assert (Hp : p <> []).
  { destruct values as [|[q v] values]; [auto|]. intros ->. apply (N q); [left; reflexivity|]. right. exists q. reflexivity. }
  apply merge_frame; [exact U| |].
  - destruct (get_path (PDict patch) p) as [w|] eqn:E; [|reflexivity]. exfalso. destruct (H2 p w Hp E) as (q & v & Hin & C).
    apply (N q); [apply in_map_iff; exists (q, v); auto|exact C].
  - intros q r E. destruct q as [|k q]; [exact Logic.I|]. destruct (get_path (PDict patch) (k :: q)) as [w|] eqn:E2; [|exact Logic.I].
    destruct (H2 (k :: q) w ltac:(discriminate) E2) as (q' & v & Hin & C).
    assert (Nq : ~ comparable q' p) by (apply N, in_map_iff; exists (q', v); auto).
    destruct C as [(s & Es)|(s & Es)]; [exfalso; apply Nq; left; exists (s ++ r); rewrite app_assoc, <- Es; exact E|].
    destruct s as [|k3 s]; [exfalso; apply Nq; left; exists r; rewrite app_nil_r in Es; rewrite Es; exact E|].
    pose proof (H1 _ _ Hin) as G. rewrite Es in G. apply get_path_under in G; [|discriminate]. destruct G as (d & G). rewrite E2 in G.
    injection G as ->. exact Logic.I.
Qed.

Lemma picked_in params ix p v : valid_choice (map snd params) ix -> In (p, v) (picked params ix) -> exists vs, In (p, vs) params /\ In v vs.
Proof.
  revert ix. induction params as [|[q vs] params IH]; intros ix V H; inversion V as [|i ? ix' ? Hi V']; subst; cbn in H; [destruct H|].
  destruct H as [[= <- <-]|H]; [exists vs; split; [left; reflexivity|apply nth_In, Hi]|].
  destruct (IH ix' V' H) as (vs' & A & B). exists vs'. split; [right; exact A|exact B].
Qed.
Lemma picked_fst params ix : valid_choice (map snd params) ix -> map fst (picked params ix) = map fst params.
Proof.
  revert ix. induction params as [|[q vs] params IH]; intros ix V; inversion V as [|i ? ix' ? Hi V']; subst; [reflexivity|]. cbn. f_equal. apply IH, V'.
Qed.
Lemma trials_values {S} sort o (R : Rng S) kind space ts : sorts sort -> rng_ok R -> unique_keys (PDict space) -> search_trials sort o R kind space = Ok ts ->
  Forall (fun t => unique_keys (PDict (t_patch t)) /\
    exists values, holds (t_patch t) values /\ (forall p, In p (map fst values) <-> exists x, declares o (PDict space) p x) /\
      forall p v, In (p, v) values -> exists x, declares o (PDict space) p x /\ allowed x v) ts.
Proof.
  intros Hs HR U E. destruct (trials_shape sort o R kind space ts Hs U E) as (_ & _ & F).
  unfold search_trials in E. apply bind_ok in E. destruct E as ([] & Ec & E). apply bind_ok in E. destruct E as (ls & Els & E).
  assert (G : Forall (fun t => exists values, holds (t_patch t) values /\ (forall p, In p (map fst values) <-> exists x, declares o (PDict space) p x) /\
      forall p v, In (p, v) values -> exists x, declares o (PDict space) p x /\ allowed x v) ts).
  { destruct kind as [|seed n].
    - destruct (iter_grid_spec sort Hs o space ls ts U Els E) as (params & choices & A & B & C & D & G & I2).
      apply Forall_forall. intros t Ht.
      assert (exists ix, In ix choices /\ holds (t_patch t) (picked params ix)) as (ix & Hix & Hh).
      { clear - I2 Ht. induction I2 as [|ix t' cs ts' H I2 IH]; [destruct Ht|]. destruct Ht as [<-|Ht]; [exists ix; split; [left; reflexivity|apply H]|].
        destruct (IH Ht) as (ix' & A & B). exists ix'. split; [right; exact A|exact B]. }
      exists (picked params ix). split; [exact Hh|]. 
      assert (V : valid_choice (map snd params) ix) by (apply D; exact Hix).
      rewrite (picked_fst _ _ V). split.
      + intros p. rewrite in_map_iff. split.
        * intros ([q vs] & <- & Hin). apply C in Hin. destruct Hin as (x & Hx & _). eauto.
        * intros (x & Hx). pose proof (proj1 (iter_grid_total sort Hs o space ls U Els) (ex_intro _ ts E) p x Hx) as Nx.
          destruct (candidates x) as [vs|] eqn:Ex; [|congruence]. exists (p, vs). split; [reflexivity|]. apply C. eauto.
      + intros p v Hin. destruct (picked_in _ _ _ _ V Hin) as (vs & Hvs & Hv). apply C in Hvs. destruct Hvs as (x & Hx & Cx).
        exists x. split; [exact Hx|]. destruct x as [l|[a b|a b|a b|l]]; try discriminate; cbn in Cx |- *; congruence.
    - unfold iter_random in E. destruct (Z.leb_spec n 0); [discriminate|].
      destruct (random_trials_spec sort Hs o R HR space ls U Els _ _ _ _ E) as (_ & _ & C).
      eapply Forall_impl; [|exact C]. intros t (_ & values & _ & H1 & H2 & H3). eauto. }
  rewrite Forall_forall in *. intros t Ht. split; [apply F, Ht|apply G, Ht].
Qed.

Lemma declared_nonempty o space : unique_keys (PDict space) -> valid_space o (PDict space) -> exists p x, declares o (PDict space) p x.
Proof.
  intros U V. revert U V. generalize (PDict space). clear space. intros v. induction v as [l _|d IH|v H1 H2] using pyval_ind'; intros U V.
  - inversion V; subst. exists [], (Listed l). constructor. assumption.
  - inversion V as [|d' spec Hs|d' Hn Hl Hc]; subst; [exists [], (Drawn spec); constructor; exact Hs|].
    destruct d as [|[k w] d]; [congruence|]. assert (L : lookup ((k, w) :: d) k = Some w) by (rewrite lookup_cons, String.eqb_refl; reflexivity).
    rewrite Forall_forall in IH. destruct (Hc k w L) as [_ Vw]. destruct (IH (k, w) (or_introl eq_refl) (uk_child _ _ _ U L) Vw) as (p & x & D).
    exists (k :: p), x. econstructor; eassumption.
  - exfalso. inversion V; subst; [eapply H2; reflexivity|eapply H1; reflexivity|eapply H1; reflexivity].
Qed.

Lemma score_all_inv objective base ts : forall l, score_all objective base ts = Ok l ->
  exists ss, l = combine (map t_index ts) ss /\ Forall2 (fun t s => objective (t_index t) (trial_config base t) = Ok s) ts ss.
Proof.
  induction ts as [|t ts IH]; intros l E; cbn in E; [injection E as <-; exists []; split; [reflexivity|constructor]|].
  apply bind_ok in E. destruct E as (s & Es & E). apply bind_ok in E. destruct E as (l' & El & E). injection E as <-.
  destruct (IH l' El) as (ss & -> & F). exists (s :: ss). split; [reflexivity|constructor; assumption].
Qed.
Lemma score_all_total objective base ts ss : Forall2 (fun t s => objective (t_index t) (trial_config base t) = Ok s) ts ss ->
  score_all objective base ts = Ok (combine (map t_index ts) ss).
Proof. induction 1 as [|t s ts ss E F IH]; [reflexivity|]. cbn. rewrite E. cbn. rewrite IH. reflexivity. Qed.
Lemma in_combine_index ts : forall (ss : list score) i s, length ts = length ss -> In (i, s) (combine (map t_index ts) ss) <->
  exists t, In (t, s) (combine ts ss) /\ t_index t = i.
Proof.
  induction ts as [|t ts IH]; intros [|x ss] i s L; try discriminate; cbn; [split; [intros []|intros (? & [] & _)]|].
  rewrite IH by (cbn in L; lia). split.
  - intros [[= <- <-]|(t' & H & <-)]; eauto.
  - intros (t' & [[= <- <-]|H] & <-); eauto.
Qed.
Lemma run_hpo_spec {S} sort o (R : Rng S) objective maximize kind space base best : sorts sort -> unique_keys (PDict space) ->
  run_hpo sort o R objective maximize kind space base = Ok best ->
  exists ts ss s, search_trials sort o R kind space = Ok ts /\
    Forall2 (fun t s => objective (t_index t) (trial_config base t) = Ok s) ts ss /\ In (best, s) (combine ts ss) /\
    forall t u, In (t, u) (combine ts ss) ->
      ~ beats maximize (counted maximize u) (counted maximize s) /\ (counted maximize u = counted maximize s -> t_index best <= t_index t).
Proof.
  intros Hs U E. unfold run_hpo in E. apply bind_ok in E. destruct E as (ts & Et & E). apply bind_ok in E. destruct E as (l & El & E).
  apply bind_ok in E. destruct E as (i & Ei & E). destruct (score_all_inv _ _ _ _ El) as (ss & -> & F).
  assert (L : length ts = length ss) by (clear - F; induction F; cbn; congruence).
  destruct (best_trial_spec maximize (combine (map t_index ts) ss)) as [Z1 Z2].
  destruct (combine (map t_index ts) ss) as [|z zs] eqn:Ez; [rewrite Z1 in Ei by reflexivity; discriminate|]. rewrite <- Ez in *. clear Z1.
  destruct Z2 as (i' & s & E1 & Hin & Hb); [rewrite Ez; discriminate|]. assert (i' = i) by congruence. subst i'.
  apply in_combine_index in Hin; [|exact L]. destruct Hin as (t & Hin & Hi).
  destruct (find (fun t => t_index t =? i) ts) as [t'|] eqn:Ef; [|discriminate]. injection E as <-. apply find_some in Ef. destruct Ef as [Ht' Ei'].
  apply Z.eqb_eq in Ei'. destruct (trials_shape sort o R kind space ts Hs U Et) as (_ & Nd & _).
  assert (t = t').
  { assert (X : forall (l : list trial) a b, NoDup (map t_index l) -> In a l -> In b l -> t_index a = t_index b -> a = b).
    { clear. induction l as [|c l IH]; intros a b N Ha Hb E; [destruct Ha|]. cbn in N. inversion_clear N as [|? ? N1 N2].
      destruct Ha as [<-|Ha], Hb as [<-|Hb]; auto; exfalso; apply N1; [rewrite E|rewrite <- E]; apply in_map; assumption. }
    apply (X ts); auto; [apply in_combine_l in Hin; exact Hin|congruence]. }
  subst t'. exists ts, ss, s. split; [exact Et|]. split; [exact F|]. split; [exact Hin|]. intros t2 u H2. rewrite Hi. apply Hb.
  apply in_combine_index; [exact L|]. eauto.
Qed.
Lemma run_hpo_total {S} sort o (R : Rng S) objective maximize kind space base ts ss : search_trials sort o R kind space = Ok ts -> ts <> [] ->
  Forall2 (fun t s => objective (t_index t) (trial_config base t) = Ok s) ts ss ->
  exists best, run_hpo sort o R objective maximize kind space base = Ok best.
Proof.
  intros E N F. unfold run_hpo. rewrite E. cbn. rewrite (score_all_total _ _ _ _ F). cbn.
  assert (L : length ts = length ss) by (clear - F; induction F; cbn; congruence).
  destruct (best_trial_spec maximize (combine (map t_index ts) ss)) as [_ Z2].
  destruct Z2 as (i & s & E1 & Hin & _); [destruct F; [congruence|discriminate]|]. rewrite E1. cbn.
  apply in_combine_index in Hin; [|exact L]. destruct Hin as (t & Hin & Hi). apply in_combine_l in Hin.
  destruct (find (fun t => t_index t =? i) ts) as [t'|] eqn:Ef; [eauto|]. exfalso. pose proof (find_none _ _ Ef t Hin) as X. cbn in X. lia.
Qed.

(* ------------------------------------------------------------------ the loop over seeds *)
Lemma sweep_all single seeds : exists reps f, sweep_loop false single seeds = (seeds, Ok (reps, f)) /\
  reps = reports_of (map single seeds) /\ 0 <= f /\ (f = 0 <-> forall s, In s seeds -> ~ run_failed (single s)).
Proof.
  induction seeds as [|s seeds (reps & f & E & Er & Hf & Hi)]; cbn [sweep_loop]; [exists [], 0; repeat split; try lia; intros _ ? []|].
  rewrite E. destruct (single s) as [e|code rep] eqn:Es; cbn [bind].
  - exists reps, (f + 1). cbn [map reports_of flat_map]. rewrite Es. cbn [app]. split; [reflexivity|]. split; [exact Er|]. split; [lia|].
    split; [lia|]. intros H. exfalso. apply (H s (or_introl eq_refl)). rewrite Es. exact Logic.I.
  - destruct (Z.eqb_spec code 0) as [->|Hc].
    + exists (rep :: reps), f. cbn [map reports_of flat_map]. rewrite Es. cbn [app]. split; [reflexivity|]. split; [rewrite Er; reflexivity|]. split; [exact Hf|].
      rewrite Hi. split.
      * intros H s' [<-|H']; [rewrite Es; cbn; lia|auto].
      * intros H s' H'. apply H. right. exact H'.
    + exists (rep :: reps), (f + 1). cbn [map reports_of flat_map]. rewrite Es. cbn [app]. split; [reflexivity|]. split; [rewrite Er; reflexivity|]. split; [lia|].
      split; [lia|]. intros H. exfalso. apply (H s (or_introl eq_refl)). rewrite Es. exact Hc.
Qed.
Lemma sweep_stop single seeds :
  (forall s, In s seeds -> ~ run_failed (single s)) /\ sweep_loop true single seeds = (seeds, Ok (reports_of (map single seeds), 0)) \/
  exists front s back e, seeds = front ++ s :: back /\ (forall x, In x front -> ~ run_failed (single x)) /\ run_failed (single s) /\
    sweep_loop true single seeds = (front ++ [s], Err e) /\
    match single s with Raised e' => e = e' | Returned _ _ => e = BenchError end.
Proof.
  induction seeds as [|s seeds IH]; [left; split; [intros ? []|reflexivity]|]. cbn [sweep_loop].
  destruct (single s) as [e|code rep] eqn:Es.
  - right. exists [], s, seeds, e. rewrite Es. repeat split; intros ? [].
  - destruct (Z.eqb_spec code 0) as [->|Hc].
    + destruct IH as [(A & B)|(front & s' & back & e & -> & A & B & C & D)].
      * left. rewrite B. split; [intros x [<-|Hx]; [rewrite Es; cbn; lia|auto]|]. cbn [bind map reports_of flat_map]. rewrite Es. reflexivity.
      * right. exists (s :: front), s', back, e. rewrite C. split; [reflexivity|]. split; [intros x [<-|Hx]; [rewrite Es; cbn; lia|auto]|]. auto.
    + right. exists [], s, seeds, BenchError. rewrite Es. repeat split; [intros ? []|exact Hc].
Qed.

(* ------------------------------------------------------------------ the order of floats *)
Definition key (f : f64) : Z * Z * Z :=
  match f with
  | S754_infinity true => (-2, 0, 0) | S754_finite true m e => (-1, - e, Z.neg m) | S754_zero _ => (0, 0, 0)
  | S754_finite false m e => (1, e, Z.pos m) | S754_infinity false => (2, 0, 0) | S754_nan => (3, 0, 0)
  end.
Definition lexlt (a b : Z * Z * Z) : Prop :=
  fst (fst a) < fst (fst b) \/ fst (fst a) = fst (fst b) /\ (snd (fst a) < snd (fst b) \/ snd (fst a) = snd (fst b) /\ snd a < snd b).
Lemma compare_key a b : a <> S754_nan -> b <> S754_nan ->
  match SFcompare a b with Some Lt => lexlt (key a) (key b) | Some Gt => lexlt (key b) (key a) | Some Eq => key a = key b | None => False end.
Proof.
  intros Na Nb. destruct a as [s|[|]| |[|] m e]; destruct b as [s2|[|]| |[|] m2 e2]; try congruence; cbn; unfold lexlt; cbn; try lia; try reflexivity.
  - destruct (Z.compare_spec e e2) as [->| |]; cbn; [|lia|lia]. change (Pos.compare_cont Eq m m2) with (Pos.compare m m2).
    destruct (Pos.compare_spec m m2) as [->| |]; cbn; [reflexivity|lia|lia].
  - destruct (Z.compare_spec e e2) as [->| |]; cbn; [|lia|lia]. change (Pos.compare_cont Eq m m2) with (Pos.compare m m2).
    destruct (Pos.compare_spec m m2) as [->| |]; cbn; [reflexivity|lia|lia].
Qed.
Lemma ltb_key a b : a <> S754_nan -> b <> S754_nan -> f64_ltb a b = true <-> lexlt (key a) (key b).
Proof.
  intros Na Nb. pose proof (compare_key a b Na Nb) as H. unfold f64_ltb, SFltb. destruct (SFcompare a b) as [[]|]; unfold lexlt in *; try (split; [discriminate|]);
    try tauto; try (rewrite H; lia); try lia.
Qed.
Lemma leb_key a b : a <> S754_nan -> b <> S754_nan -> f64_leb a b = true <-> ~ lexlt (key b) (key a).
Proof.
  intros Na Nb. pose proof (compare_key a b Na Nb) as H. unfold f64_leb, SFleb. destruct (SFcompare a b) as [[]|]; unfold lexlt in *; try tauto.
  - split; [intros _; rewrite H; lia|reflexivity].
  - split; [intros _; lia|reflexivity].
  - split; [discriminate|tauto].
Qed.
Lemma min_spec l : forall x, nan_free (x :: l) -> smallest (x :: l) (py_min x l).
Proof.
  unfold py_min. induction l as [|y l IH]; intros x N.
  - cbn [fold_left]. split; [left; reflexivity|]. intros z [<-|[]]. inversion_clear N. apply leb_key; auto. unfold lexlt. lia.
  - cbn [fold_left]. inversion_clear N as [|? ? Nx N']. inversion_clear N' as [|? ? Ny N2].
    destruct (f64_ltb y x) eqn:E.
    + destruct (IH y) as [A B]; [constructor; assumption|]. split; [destruct A as [A|A]; [right; left; exact A|right; right; exact A]|].
      intros z [<-|Hz]; [|apply B; exact Hz]. pose proof (B y (or_introl eq_refl)) as B'.
      assert (Nm : fold_left (fun m y => if f64_ltb y m then y else m) l y <> S754_nan).
      { destruct A as [<-|A]; [exact Ny|]. unfold nan_free in N2. rewrite Forall_forall in N2. apply N2, A. }
      apply leb_key in B'; auto. apply leb_key; auto. apply ltb_key in E; auto. unfold lexlt in *. lia.
    + destruct (IH x) as [A B]; [constructor; assumption|]. split; [destruct A as [A|A]; [left; exact A|right; right; exact A]|].
      assert (Nm : fold_left (fun m y => if f64_ltb y m then y else m) l x <> S754_nan).
      { destruct A as [<-|A]; [exact Nx|]. unfold nan_free in N2. rewrite Forall_forall in N2. apply N2, A. }
      intros z [<-|[<-|Hz]]; [apply B; left; reflexivity| |apply B; right; exact Hz].
      pose proof (B x (or_introl eq_refl)) as B'. apply leb_key in B'; auto. apply leb_key; auto.
      assert (E' : ~ lexlt (key y) (key x)) by (intros X; apply ltb_key in X; auto; congruence). unfold lexlt in *. lia.
Qed.
Lemma max_spec l : forall x, nan_free (x :: l) -> largest (x :: l) (py_max x l).
Proof.
  unfold py_max. induction l as [|y l IH]; intros x N.
  - cbn [fold_left]. split; [left; reflexivity|]. intros z [<-|[]]. inversion_clear N. apply leb_key; auto. unfold lexlt. lia.
  - cbn [fold_left]. inversion_clear N as [|? ? Nx N']. inversion_clear N' as [|? ? Ny N2].
    destruct (f64_ltb x y) eqn:E.
    + destruct (IH y) as [A B]; [constructor; assumption|]. split; [destruct A as [A|A]; [right; left; exact A|right; right; exact A]|].
      intros z [<-|Hz]; [|apply B; exact Hz]. pose proof (B y (or_introl eq_refl)) as B'.
      assert (Nm : fold_left (fun m y => if f64_ltb m y then y else m) l y <> S754_nan).
      { destruct A as [<-|A]; [exact Ny|]. unfold nan_free in N2. rewrite Forall_forall in N2. apply N2, A. }
      apply leb_key in B'; auto. apply leb_key; auto. apply ltb_key in E; auto. unfold lexlt in *. lia.
    + destruct (IH x) as [A B]; [constructor; assumption|]. split; [destruct A as [A|A]; [left; exact A|right; right; exact A]|].
      assert (Nm : fold_left (fun m y => if f64_ltb m y then y else m) l x <> S754_nan).
      { destruct A as [<-|A]; [exact Nx|]. unfold nan_free in N2. rewrite Forall_forall in N2. apply N2, A. }
      intros z [<-|[<-|Hz]]; [apply B; left; reflexivity| |apply B; right; exact Hz].
      pose proof (B x (or_introl eq_refl)) as B'. apply leb_key in B'; auto. apply leb_key; auto.
      assert (E' : ~ lexlt (key x) (key y)) by (intros X; apply ltb_key in X; auto; congruence). unfold lexlt in *. lia.
Qed.

(* ------------------------------------------------------------------ the summary *)
Definition num_of (v : option pyval) : option f64 :=
  match v with
  | Some (PFloat f) => Some f
  | Some (PInt z) => match f64_of_Z z with S754_infinity _ => None | f => Some f end
  | _ => None
  end.
Definition leaf_items (o : Oracle) := fix go (d : list (string * pyval)) : result (list (list string * f64)) :=
  match d with
  | [] => Ok []
  | (k, w) :: r => do a <- numeric_leaves o w; do b <- go r; Ok (map (fun px => (k :: fst px, snd px)) a ++ b)
  end.
Lemma leaves_dict o d : numeric_leaves o (PDict d) = leaf_items o d.
Proof.
  assert (H : forall l, (fix go (d : list (string * pyval)) : result (list (list string * f64)) := match d with [] => Ok []
     | (k, w) :: r => do a <- numeric_leaves o w; do b <- go r; Ok (map (fun px => (k :: fst px, snd px)) a ++ b) end) l = leaf_items o l).
  { induction l as [|[k w] l IH]; [reflexivity|]. cbn [leaf_items]. rewrite <- IH. reflexivity. }
  rewrite <- (H d). reflexivity.
Qed.
Lemma py_float_num o v x : py_float o v = Ok x -> (exists z, v = PInt z) \/ (exists f, v = PFloat f) -> num_of (Some v) = Some x.
Proof. intros E [(z & ->)|(f & ->)]; revert E; unfold py_float, num_of; [destruct (f64_of_Z z)|]; intros E; try discriminate E; injection E as <-; reflexivity. Qed.
Lemma leaves_spec o v : unique_keys v -> forall ls, numeric_leaves o v = Ok ls ->
  NoDup (map fst ls) /\ forall p x, In (p, x) ls <-> num_of (get_path v p) = Some x.
Proof.
  induction v as [l _|d IH|v H1 H2] using pyval_ind'; intros U ls E.
  - cbn in E. injection E as <-. split; [constructor|]. intros [|k p] x; cbn; split; try tauto; discriminate.
  - rewrite leaves_dict in E. pose proof (uk_nodup _ U) as Nd. pose proof (uk_items _ U) as Uc.
    assert (X : NoDup (map fst ls) /\ (forall p x, In (p, x) ls <-> exists k r, p = k :: r /\ num_of (match lookup d k with Some w => get_path w r | None => None end) = Some x)).
    { clear U. revert ls E. induction d as [|[k w] d IHd]; intros ls E; cbn [leaf_items] in E.
      - injection E as <-. split; [constructor|]. intros p x. cbn. split; [intros []|intros (? & ? & _ & [=])].
      - apply bind_ok in E. destruct E as (a & Ea & E). apply bind_ok in E. destruct E as (b & Eb & E). injection E as <-.
        inversion_clear IH as [|? ? IHw IHr]. inversion_clear Nd as [|? ? Nk Nd']. inversion_clear Uc as [|? ? Uw Ur]. cbn [snd] in *.
        destruct (IHw Uw a Ea) as [A1 A2]. destruct (IHd IHr Nd' Ur b Eb) as [B1 B2]. split.
        + rewrite map_app, map_map. cbn [fst]. rewrite <- (map_map fst (fun p => k :: p)). 
          apply NoDup_app_iff. split; [apply FinFun.Injective_map_NoDup; [intros ? ? [=]; assumption|exact A1]|]. split; [exact B1|].
          intros q Hq Hb. apply in_map_iff in Hq. destruct Hq as (q' & <- & _). apply in_map_iff in Hb. destruct Hb as ([q2 y] & Eq & Hb).
          cbn in Eq. subst q2. apply B2 in Hb. destruct Hb as (k' & r & [= <- <-] & Hn).
          assert (lookup d k = None) as L by (apply lookup_none_iff; exact Nk). rewrite L in Hn. discriminate.
        + intros p x. rewrite in_app_iff, B2, in_map_iff. split.
          * intros [([q y] & [= <- <-] & Hin)|(k' & r & -> & Hn)].
            -- exists k, q. split; [reflexivity|]. rewrite lookup_cons, String.eqb_refl. apply A2. exact Hin.
            -- exists k', r. split; [reflexivity|]. rewrite lookup_cons. destruct (String.eqb_spec k k') as [->|]; [|exact Hn].
               exfalso. assert (lookup d k' = None) as L by (apply lookup_none_iff; exact Nk). rewrite L in Hn. discriminate.
          * intros (k' & r & -> & Hn). rewrite lookup_cons in Hn. destruct (String.eqb_spec k k') as [->|].
            -- left. exists (r, x). split; [reflexivity|]. apply A2, Hn.
            -- right. eauto. }
    destruct X as [X1 X2]. split; [exact X1|]. intros p x. rewrite X2. destruct p as [|k r].
    + split; [intros (? & ? & [=] & _)|discriminate].
    + cbn [get_path]. split; [intros (k' & r' & [= <- <-] & H); exact H|intros H; exists k, r; auto].
  - assert (X : exists x, (ls = [([], x)] /\ num_of (Some v) = Some x) \/ (ls = [] /\ num_of (Some v) = None)).
    { destruct v; cbn [numeric_leaves] in E; try (exists f64_zero; right; split; [congruence|reflexivity]).
      - apply bind_ok in E. destruct E as (x & Ex & E). injection E as <-. exists x. left. split; [reflexivity|]. eapply py_float_num; eauto.
      - apply bind_ok in E. destruct E as (x & Ex & E). injection E as <-. exists x. left. split; [reflexivity|]. eapply py_float_num; eauto.
      - exfalso; eapply H1; reflexivity. }
    assert (G : forall k r, get_path v (k :: r) = None) by (intros k r; destruct v; try reflexivity; exfalso; eapply H1; reflexivity).
    destruct X as (x & [(-> & Ex)|(-> & Ex)]).
    + split; [repeat constructor; intros []|]. intros [|k p] y.
      * cbn [get_path In]. split; [intros [[= <-]|[]]; exact Ex|]. intros Ey. left. congruence.
      * rewrite G. cbn. split; [intros [[=]|[]]|discriminate].
    + split; [constructor|]. intros [|k p] y; [cbn [get_path]; rewrite Ex|rewrite G]; cbn; split; try tauto; discriminate.
Qed.

Definition vals (acc : list (list string * list f64)) (p : list string) : list f64 :=
  match find (fun qv => path_eqb (fst qv) p) acc with Some (_, vs) => vs | None => [] end.
Lemma path_eqb_eq p q : path_eqb p q = true <-> p = q.
Proof. unfold path_eqb. destruct (list_eq_dec string_dec p q); split; congruence. Qed.
Lemma vals_add acc p x q : vals (add_value acc p x) q = vals acc q ++ (if path_eqb p q then [x] else []).
Proof.
  unfold vals. induction acc as [|[a vs] acc IH]; cbn [add_value find fst].
  - destruct (path_eqb p q); reflexivity.
  - destruct (path_eqb a p) eqn:Ea; cbn [find fst].
    + apply path_eqb_eq in Ea. subst a. destruct (path_eqb p q) eqn:Eq; [reflexivity|]. rewrite app_nil_r. reflexivity.
    + destruct (path_eqb a q) eqn:Eq; [|exact IH]. apply path_eqb_eq in Eq. subst a.
      assert (path_eqb p q = false) as ->; [|rewrite app_nil_r; reflexivity]. apply not_true_is_false. intros X. apply path_eqb_eq in X. subst p.
      assert (path_eqb q q = true) by (apply path_eqb_eq; reflexivity). congruence.
Qed.
Definition acc_ok (acc : list (list string * list f64)) : Prop := NoDup (map fst acc) /\ Forall (fun qv => snd qv <> []) acc.
Lemma add_keys acc p x q : In q (map fst (add_value acc p x)) <-> In q (map fst acc) \/ q = p.
Proof.
  induction acc as [|[a vs] acc IH]; cbn [add_value]; [cbn; intuition congruence|].
  destruct (path_eqb a p) eqn:Ea; cbn [map fst In]; [|rewrite IH; tauto]. apply path_eqb_eq in Ea. subst a. intuition congruence.
Qed.
Lemma add_ok acc p x : acc_ok acc -> acc_ok (add_value acc p x).
Proof.
  unfold acc_ok. induction acc as [|[a vs] acc IH]; cbn [add_value]; intros [N F].
  - split; [repeat constructor; intros []|repeat constructor; discriminate].
  - inversion_clear N as [|? ? N1 N2]. inversion_clear F as [|? ? F1 F2]. destruct (path_eqb a p) eqn:Ea.
    + split; [constructor; assumption|]. constructor; [cbn; destruct vs; discriminate|exact F2].
    + destruct (IH (conj N2 F2)) as [A B]. split; [|constructor; assumption]. constructor; [|exact A]. rewrite add_keys. intros [H|H]; [exact (N1 H)|].
      cbn in H. subst a. assert (path_eqb p p = true) by (apply path_eqb_eq; reflexivity). congruence.
Qed.
Lemma fold_add ls : NoDup (map fst ls) -> forall acc, acc_ok acc ->
  let acc' := fold_left (fun a px => add_value a (fst px) (snd px)) ls acc in
  acc_ok acc' /\ forall p, vals acc' p = vals acc p ++ match find (fun qx => path_eqb (fst qx) p) ls with Some (_, x) => [x] | None => [] end.
Proof.
  induction ls as [|[q x] ls IH]; intros N acc A; cbv zeta; cbn [fold_left fst snd find].
  - split; [exact A|]. intros p. rewrite app_nil_r. reflexivity.
  - inversion_clear N as [|? ? N1 N2]. destruct (IH N2 (add_value acc q x) (add_ok _ _ _ A)) as [B C]. split; [exact B|]. intros p.
    rewrite C, vals_add, <- app_assoc. f_equal. destruct (path_eqb q p) eqn:E; [|reflexivity]. apply path_eqb_eq in E. subst q.
    destruct (find (fun qx => path_eqb (fst qx) p) ls) as [[q y]|] eqn:Ef; [|reflexivity]. exfalso. apply find_some in Ef. destruct Ef as [Hin E].
    apply path_eqb_eq in E. cbn in E. subst q. apply N1. apply in_map_iff. exists (p, y). auto.
Qed.
Lemma find_num o v ls p : unique_keys v -> numeric_leaves o v = Ok ls ->
  match find (fun qx => path_eqb (fst qx) p) ls with Some (_, x) => [x] | None => [] end =
  match num_of (get_path v p) with Some x => [x] | None => [] end.
Proof.
  intros U E. destruct (leaves_spec o v U ls E) as [_ H]. destruct (find (fun qx => path_eqb (fst qx) p) ls) as [[q x]|] eqn:Ef.
  - apply find_some in Ef. destruct Ef as [Hin Eq]. apply path_eqb_eq in Eq. cbn in Eq. subst q. apply H in Hin. rewrite Hin. reflexivity.
  - destruct (num_of (get_path v p)) as [x|] eqn:En; [|reflexivity]. apply H in En. pose proof (find_none _ _ Ef _ En) as X. cbn in X.
    assert (path_eqb p p = true) by (apply path_eqb_eq; reflexivity). congruence.
Qed.
Definition successes (o : Oracle) (l : list pyval) : Z := lenZ (filter (succeeded o) l).
Lemma take_report_spec o ok acc r a : unique_keys r -> acc_ok acc -> take_report o (ok, acc) r = Ok a ->
  fst a = ok + (if succeeded o r then 1 else 0) /\ acc_ok (snd a) /\ forall p, vals (snd a) p = vals acc p ++ measured o [r] p.
Proof.
  intros U A E. unfold take_report in E. destruct r as [|bb|z|f|s|l|d]; try discriminate.
  unfold measured. cbn [flat_map]. unfold succeeded, number_at. cbn [get_path].
  unfold get_or in E. destruct (lookup d "run") as [run|] eqn:Er.
  - destruct run as [|bb|z|f|s|l|run]; try discriminate. cbn [get_path].
    destruct (lookup run "status") as [v|] eqn:Ev; cbn [get_path].
    + destruct (lookup d "metrics") as [m|] eqn:Em.
      * destruct m as [|bb|z|f|s|l|m]; try (destruct (String.eqb (py_str o v) "success"); injection E as <-; cbn [fst snd]; (split; [lia|]);
          (split; [exact A|]); intros p; rewrite ?app_nil_r; reflexivity).
        destruct (String.eqb (py_str o v) "success") eqn:Es; [|injection E as <-; cbn [fst snd]; split; [lia|]; split; [exact A|]; intros p; rewrite app_nil_r; reflexivity].
        apply bind_ok in E. destruct E as (ls & El & E). injection E as <-. cbn [fst snd].
        assert (Um : unique_keys (PDict m)) by (eapply uk_child; eassumption).
        destruct (fold_add ls (proj1 (leaves_spec o _ Um ls El)) acc A) as [B C]. split; [reflexivity|]. split; [exact B|]. intros p.
        rewrite C, (find_num o _ ls p Um El), app_nil_r. reflexivity.
      * destruct (String.eqb (py_str o v) "success"); injection E as <-; cbn [fst snd]; (split; [lia|]); (split; [exact A|]); intros p; rewrite app_nil_r; reflexivity.
    + cbn [py_str] in E. change (String.eqb "unknown" "success") with false in E. cbn iota in E. injection E as <-. cbn [fst snd].
      split; [lia|]. split; [exact A|]. intros p; rewrite app_nil_r; reflexivity.
  - change (lookup [] "status") with (@None pyval) in E. cbn [py_str] in E. change (String.eqb "unknown" "success") with false in E. cbn iota in E.
    injection E as <-. cbn [fst snd]. split; [lia|]. split; [exact A|]. intros p; rewrite app_nil_r; reflexivity.
Qed.
Lemma take_reports_spec o l : Forall unique_keys l -> forall ok acc a, acc_ok acc -> take_reports o (ok, acc) l = Ok a ->
  fst a = ok + successes o l /\ acc_ok (snd a) /\ forall p, vals (snd a) p = vals acc p ++ measured o l p.
Proof.
  induction 1 as [|r l U F IH]; intros ok acc a A E; cbn [take_reports] in E.
  - injection E as <-. cbn. split; [lia|]. split; [exact A|]. intros p. rewrite app_nil_r. reflexivity.
  - apply bind_ok in E. destruct E as ([ok1 acc1] & E1 & E). destruct (take_report_spec o ok acc r _ U A E1) as (H1 & H2 & H3). cbn [fst snd] in *.
    destruct (IH ok1 acc1 a H2 E) as (G1 & G2 & G3). split; [|split; [exact G2|]].
    + rewrite G1, H1. unfold successes. cbn [filter]. destruct (succeeded o r); unfold lenZ; cbn [length]; lia.
    + intros p. rewrite G3, H3, <- app_assoc. f_equal. unfold measured. cbn [flat_map]. rewrite app_nil_r. reflexivity.
Qed.
Lemma set_nested_assign p : forall d v d', assign d p v = Ok d' -> set_nested d p v = Ok d'.
Proof.
  induction p as [|k p IH]; intros d v d' E; [discriminate|]. destruct p as [|k2 p]; [exact E|].
  change (set_nested d (k :: k2 :: p) v) with
    (do x <- set_nested (match lookup d k with Some (PDict b) => b | _ => [] end) (k2 :: p) v; Ok (dset d k (PDict x))).
  change (assign d (k :: k2 :: p) v) with
    (match lookup d k with None => do x <- assign [] (k2 :: p) v; Ok (dset d k (PDict x))
     | Some (PDict b) => do x <- assign b (k2 :: p) v; Ok (dset d k (PDict x)) | Some _ => Err TypeError end) in E.
  destruct (lookup d k) as [[]|]; try discriminate; apply bind_ok in E; destruct E as (x & Ex & E); rewrite (IH _ _ _ Ex); exact E.
Qed.
Lemma stats_spec fmean pstdev vs v : stats fmean pstdev vs = Ok v -> statistics_of fmean pstdev vs v.
Proof.
  unfold stats, statistics_of. destruct vs as [|x r]; [discriminate|]. intros E. apply bind_ok in E. destruct E as (m & Em & E).
  apply bind_ok in E. destruct E as (s & Es & E). injection E as <-. exists m, s, (py_min x r), (py_max x r). split; [reflexivity|]. split; [exact Em|].
  split; [destruct (1 <? lenZ (x :: r)); congruence|]. intros N. split; [apply min_spec, N|apply max_spec, N].
Qed.
Lemma set_all_spec fmean pstdev l : forall d pairs d', holds d pairs -> (forall p, In p (map fst l) -> p <> []) -> NoDup (map fst l) ->
  separate (map fst l ++ map fst pairs) -> (forall p, In p (map fst l) -> ~ In p (map fst pairs)) ->
  set_all fmean pstdev d l = Ok d' ->
  exists values, holds d' (values ++ pairs) /\ map fst values = rev (map fst l) /\
    forall p v, In (p, v) values -> exists vs, In (p, vs) l /\ statistics_of fmean pstdev vs v.
Proof.
  induction l as [|[p vs] l IH]; intros d pairs d' H Np Nd Sp Dj E; cbn [set_all] in E.
  - injection E as <-. exists []. split; [exact H|]. split; [reflexivity|intros ? ? []].
  - apply bind_ok in E. destruct E as (s & Es & E). apply bind_ok in E. destruct E as (d1 & E1 & E). cbn [map fst] in *.
    inversion_clear Nd as [|? ? N1 N2].
    destruct (assign_holds d pairs p s H (Np p (or_introl eq_refl))) as (d2 & A & Hd2).
    { intros p' v' Hin C. assert (p' = p).
      { apply Sp; [apply in_or_app; right; apply in_map_iff; exists (p', v'); auto|left; reflexivity|exact C]. }
      subst p'. apply (Dj p (or_introl eq_refl)). apply in_map_iff. exists (p, v'). auto. }
    apply set_nested_assign in A. assert (d2 = d1) by congruence. subst d2.
    destruct (IH d1 ((p, s) :: pairs) d' Hd2) as (values & V1 & V2 & V3).
    + intros q Hq. apply Np. right. exact Hq.
    + exact N2.
    + intros a b Ha Hb. apply Sp; [revert Ha|revert Hb]; cbn [map fst app In]; rewrite !in_app_iff; cbn [In]; tauto.
    + intros q Hq [<-|Hin]; [exact (N1 Hq)|]. apply (Dj q); [right; exact Hq|exact Hin].
    + exact E.
    + exists (values ++ [(p, s)]). rewrite <- app_assoc. split; [exact V1|]. rewrite map_app, V2. split; [reflexivity|].
      intros q v Hin. apply in_app_iff in Hin. destruct Hin as [Hin|[[= <- <-]|[]]].
      * destruct (V3 q v Hin) as (ws & Hw & Hs). exists ws. split; [right; exact Hw|exact Hs].
      * exists vs. split; [left; reflexivity|]. apply stats_spec, Es.
Qed.
Lemma vals_in acc p vs : acc_ok acc -> In (p, vs) acc -> vals acc p = vs.
Proof.
  intros [N _]. unfold vals. induction acc as [|[q ws] acc IH]; intros H; [destruct H|]. cbn [find fst]. cbn in N. inversion_clear N as [|? ? N1 N2].
  destruct H as [[= -> ->]|H].
  - assert (path_eqb p p = true) as -> by (apply path_eqb_eq; reflexivity). reflexivity.
  - destruct (path_eqb q p) eqn:E; [|apply IH; assumption]. apply path_eqb_eq in E. subst q. exfalso. apply N1. apply in_map_iff. exists (p, vs). auto.
Qed.
Lemma vals_some acc p : acc_ok acc -> (In p (map fst acc) <-> vals acc p <> []).
Proof.
  intros A. split.
  - intros H. apply in_map_iff in H. destruct H as ([q vs] & <- & Hin). cbn. rewrite (vals_in acc q vs A Hin). destruct A as [_ F].
    rewrite Forall_forall in F. apply (F _ Hin).
  - unfold vals. destruct (find (fun qv => path_eqb (fst qv) p) acc) as [[q vs]|] eqn:E; [|congruence]. intros _.
    apply find_some in E. destruct E as [Hin E]. apply path_eqb_eq in E. cbn in E. subst q. apply in_map_iff. exists (p, vs). auto.
Qed.
Lemma summarise_spec o fmean pstdev sortp requested reports s : (forall l, Permutation (sortp l) l) -> Forall unique_keys reports ->
  (forall p q, measured o reports p <> [] -> measured o reports q <> [] -> comparable p q -> p = q) ->
  summarise o fmean pstdev sortp requested reports = Ok s ->
  s_requested s = lenZ requested /\ s_completed s = lenZ reports /\ s_successful s = successes o reports /\ s_failed s = lenZ reports - successes o reports /\
  s_status s = (if s_failed s =? 0 then "success" else if 0 <? s_successful s then "partial_failure" else "failed") /\
  exists values, holds (s_metrics s) values /\ NoDup (map fst values) /\ (forall p, In p (map fst values) <-> measured o reports p <> []) /\
    forall p v, In (p, v) values -> statistics_of fmean pstdev (measured o reports p) v.
Proof.
  intros P U Sp E. unfold summarise in E. apply bind_ok in E. destruct E as ([ok acc] & Et & E). apply bind_ok in E. destruct E as (m & Em & E).
  injection E as <-. cbn [s_requested s_completed s_successful s_failed s_status s_metrics].
  destruct (take_reports_spec o reports U 0 [] (ok, acc) ltac:(split; constructor) Et) as (H1 & H2 & H3). cbn [fst snd] in *. rewrite H1, Z.add_0_l.
  repeat (split; [reflexivity|]).
  assert (M : forall p, In p (map fst (sortp acc)) <-> measured o reports p <> []).
  { intros p. transitivity (In p (map fst acc)).
    - split; apply Permutation_in, Permutation_map; [apply P|apply Permutation_sym, P].
    - rewrite vals_some by exact H2. rewrite H3. reflexivity. }
  assert (Np : forall p, measured o reports p <> [] -> p <> []).
  { intros p H -> . apply H. unfold measured. clear - U. induction reports as [|r l IH]; [reflexivity|]. cbn [flat_map]. rewrite IH by (inversion U; assumption).
    unfold succeeded, number_at. destruct (get_path r ["run"; "status"]); [|reflexivity]. destruct (get_path r ["metrics"]) as [[]|]; try reflexivity.
    destruct (String.eqb _ _); reflexivity. }
  assert (Nd : NoDup (map fst (sortp acc))).
  { eapply Permutation_NoDup; [apply Permutation_sym, Permutation_map, P|apply H2]. }
  destruct (set_all_spec fmean pstdev (sortp acc) [] [] m) as (values & V1 & V2 & V3); auto.
  - split; [intros ? ? []|]. intros [|k q] w Hq Hw; [congruence|discriminate].
  - intros p Hp. apply Np, M, Hp.
  - cbn. rewrite app_nil_r. intros p q Hp Hq. apply Sp; apply M; assumption.
  - exists values. rewrite app_nil_r in V1. split; [exact V1|]. rewrite V2. split; [apply NoDup_rev, Nd|]. split.
    + intros p. rewrite <- in_rev. apply M.
    + intros p v Hin. destruct (V3 p v Hin) as (vs & Hvs & Hs). apply (Permutation_in _ (P acc)) in Hvs. rewrite <- (H3 p : _ = measured o reports p).
      rewrite (vals_in acc p vs H2 Hvs). exact Hs.
Qed.
Lemma counts_spec o fmean pstdev sortp requested reports s : Forall unique_keys reports ->
  summarise o fmean pstdev sortp requested reports = Ok s ->
  let good := lenZ (filter (succeeded o) reports) in
  s_requested s = lenZ requested /\ s_completed s = lenZ reports /\ s_successful s = good /\ s_failed s = lenZ reports - good /\
  (s_status s = "success" <-> forall r, In r reports -> succeeded o r = true) /\
  (s_status s = "failed" <-> reports <> [] /\ forall r, In r reports -> succeeded o r = false) /\
  (s_status s = "success" \/ s_status s = "failed" \/ s_status s = "partial_failure").
Proof.
  intros U E. cbv zeta. unfold summarise in E. apply bind_ok in E. destruct E as ([ok acc] & Et & E). apply bind_ok in E. destruct E as (m & Em & E).
  injection E as <-. cbn [s_requested s_completed s_successful s_failed s_status s_metrics].
  destruct (take_reports_spec o reports U 0 [] (ok, acc) ltac:(split; constructor) Et) as (H1 & _). cbn [fst] in H1. rewrite H1, Z.add_0_l. unfold successes.
  repeat (split; [reflexivity|]).
  assert (L : 0 <= lenZ (filter (succeeded o) reports) <= lenZ reports /\
    (lenZ (filter (succeeded o) reports) = lenZ reports <-> forall r, In r reports -> succeeded o r = true) /\
    (lenZ (filter (succeeded o) reports) = 0 <-> forall r, In r reports -> succeeded o r = false)).
  { clear. unfold lenZ. induction reports as [|r l (A & B & C)]; cbn [filter length]; [repeat split; try lia; intros _ ? []|].
    destruct (succeeded o r) eqn:Er; cbn [length].
    - split; [lia|]. split.
      + transitivity (Z.of_nat (length (filter (succeeded o) l)) = Z.of_nat (length l)); [lia|]. rewrite B. split; [intros H x [<-|Hx]; auto|intros H x Hx; apply H; right; exact Hx].
      + split; [lia|]. intros H. rewrite (H r (or_introl eq_refl)) in Er. discriminate.
    - split; [lia|]. split.
      + split; [lia|]. intros H. rewrite (H r (or_introl eq_refl)) in Er. discriminate.
      + rewrite C. split; [intros H x [<-|Hx]; auto|intros H x Hx; apply H; right; exact Hx]. }
  destruct L as (L1 & L2 & L3).
  assert (Le : lenZ reports = 0 <-> reports = []) by (unfold lenZ; destruct reports; cbn; split; try congruence; lia).
  destruct (Z.eqb_spec (lenZ reports - lenZ (filter (succeeded o) reports)) 0) as [E0|E0].
  - split; [split; [intros _; apply L2; lia|reflexivity]|]. split; [|auto]. split; [discriminate|]. intros [Hn Ha]. exfalso. apply L3 in Ha. apply Hn, Le. lia.
  - split; [split; [destruct (_ <? _); discriminate|intros H; apply L2 in H; lia]|].
    destruct (Z.ltb_spec 0 (lenZ (filter (succeeded o) reports))) as [E1|E1].
    + split; [|auto]. split; [discriminate|]. intros [_ Ha]. apply L3 in Ha. lia.
    + split; [|auto]. split; [intros _; split; [intros X; apply Le in X; lia|apply L3; lia]|reflexivity].
Qed.
Lemma measured_inv o l p : measured o l p <> [] -> exists r, In r l /\ number_at o r p <> None.
Proof.
  unfold measured. induction l as [|r l IH]; cbn [flat_map]; [congruence|]. intros H. destruct (succeeded o r); [destruct (number_at o r p) eqn:E|].
  - exists r. split; [left; reflexivity|congruence].
  - destruct (IH H) as (r' & A & B). exists r'. split; [right; exact A|exact B].
  - destruct (IH H) as (r' & A & B). exists r'. split; [right; exact A|exact B].
Qed.
