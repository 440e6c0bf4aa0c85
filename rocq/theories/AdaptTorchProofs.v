(* Proofs for C148: the torch adapter. *)
From Coq Require Import String Lia ZifyBool ZifyNat.
From Verif Require Import Prelude AdaptModel AdaptSpec AdaptProofs.
Local Open Scope string_scope.
Local Open Scope Z_scope.
Local Open Scope list_scope.
Local Notation length := List.length.

Lemma key_is_spec s k : key_is s k = true <-> k = KStr s.
Proof. destruct k as [t|n]; cbn [key_is]; [rewrite String.eqb_eq; split; [intros ->; reflexivity|intros [= ->]; reflexivity]|split; discriminate]. Qed.
Lemma lookup_some s items v : lookup s items = Some v <-> binds items s v.
Proof.
  unfold lookup. induction items as [|(k, w) r IH]; cbn [find option_map fst].
  - split; [discriminate|]. intros (b & a & E & _). destruct b; discriminate E.
  - destruct (key_is s k) eqn:EK; cbn [option_map snd].
    + apply key_is_spec in EK as ->. split.
      * intros [= ->]. exists [], r. split; [reflexivity|intros x []].
      * intros ([|(k', w') b] & a & E & HN); cbn [app] in E; [injection E as -> _; reflexivity|]. injection E as <- <- _. destruct (HN w). now left.
    + rewrite IH. split.
      * intros (b & a & -> & HN). exists ((k, w) :: b), a. split; [reflexivity|]. intros x [[= -> _]|Hx]; [|exact (HN x Hx)]. cbn [key_is] in EK. rewrite String.eqb_refl in EK. discriminate.
      * intros ([|(k', w') b] & a & E & HN); cbn [app] in E; [injection E as -> _ _; cbn [key_is] in EK; rewrite String.eqb_refl in EK; discriminate|]. injection E as _ _ ->. exists b, a. split; [reflexivity|]. intros x Hx. apply (HN x). now right.
Qed.
Lemma lookup_none s items : lookup s items = None <-> unbound items s.
Proof.
  unfold lookup, unbound. induction items as [|(k, w) r IH]; cbn [find option_map fst].
  - split; [intros _ x []|reflexivity].
  - destruct (key_is s k) eqn:EK; cbn [option_map].
    + apply key_is_spec in EK as ->. split; [discriminate|]. intros H. destruct (H w). now left.
    + rewrite IH. split; [|intros H x Hx; apply (H x); now right]. intros H x [[= -> _]|Hx]; [|exact (H x Hx)]. cbn [key_is] in EK. rewrite String.eqb_refl in EK. discriminate.
Qed.
Lemma require_tensor_ok v w : require_tensor v = Ok w <-> w = v /\ tensor_like v.
Proof.
  assert (HN : forall items, existsb (fun kv => is_tensor (snd kv)) items = true <-> exists (k : key) u s dv, In (k, u) items /\ tensor u s dv).
  { intros items. rewrite existsb_exists. split.
    - intros ((k, u) & Hu & HT). cbn [snd] in HT. destruct u as [|i s dt|i s dt dv|it|i s]; try discriminate. exists k, (Ten i s dt dv), s, dv. split; [exact Hu|]. now exists i, dt.
    - intros (k & u & s & dv & Hu & i & dt & ->). exists (k, Ten i s dt dv). now split. }
  destruct v as [|i s dt|i s dt dv|items|i s]; cbn [require_tensor].
  - split; [discriminate|]. intros (_ & [(s & dv & i & dt & [=])|(it & k & u & s & dv & [=] & _)]).
  - split; [discriminate|]. intros (_ & [(s' & dv & i' & dt' & [=])|(it & k & u & s' & dv & [=] & _)]).
  - split; [|intros (-> & _); reflexivity]. intros [= <-]. split; [reflexivity|]. left. exists s, dv, i, dt. reflexivity.
  - destruct (existsb (fun kv => is_tensor (snd kv)) items) eqn:E.
    + split; [|intros (-> & _); reflexivity]. intros [= <-]. split; [reflexivity|]. right. apply HN in E as (k & u & s & dv & Hu & HT). exists items, k, u, s, dv. repeat split; assumption.
    + split; [discriminate|]. intros (_ & [(s' & dv & i' & dt' & [=])|(it & k & u & s' & dv & [= <-] & Hu & HT)]). enough (existsb (fun kv => is_tensor (snd kv)) items = true) by congruence. apply HN. now exists k, u, s', dv.
  - split; [discriminate|]. intros (_ & [(s' & dv & i' & dt' & [=])|(it & k & u & s' & dv & [=] & _)]).
Qed.
Lemma shape_array v s : attr_shape v = Ok s <-> array v s \/ exists dv, tensor v s dv.
Proof.
  destruct v as [|i s' dt|i s' dt dv|items|i s']; cbn [attr_shape].
  - split; [discriminate|]. intros [(i & dt & [=])|(dv & i & dt & [=])].
  - split; [intros [= ->]; left; now exists i, dt|]. intros [(i' & dt' & [= -> -> ->])|(dv & i' & dt' & [=])]. reflexivity.
  - split; [intros [= ->]; right; now exists dv, i, dt|]. intros [(i' & dt' & [=])|(dv' & i' & dt' & [= -> -> -> ->])]. reflexivity.
  - split; [discriminate|]. intros [(i' & dt' & [=])|(dv' & i' & dt' & [=])].
  - split; [discriminate|]. intros [(i' & dt' & [=])|(dv' & i' & dt' & [=])].
Qed.
Lemma opaque_iff v : unchecked v = true <-> opaque v.
Proof.
  unfold unchecked, opaque. destruct v as [|i s dt|i s dt dv|items|i s]; try (split; [discriminate|intros (it & [=] & _)]). split.
  - intros H. exists items. split; [reflexivity|]. apply lookup_none. now destruct (lookup "x" items).
  - intros (it & [= <-] & H). apply lookup_none in H. now rewrite H.
Qed.
Lemma features_shape v s : tensor_like v -> attr_shape (features v) = Ok s <-> featured v s.
Proof.
  intros HT. rewrite shape_array. destruct v as [|i s' dt|i s' dt dv|items|i s'].
  - destruct HT as [(s0 & dv & i & dt & [=])|(it & k & u & s0 & dv & [=] & _)].
  - destruct HT as [(s0 & dv & i0 & dt0 & [=])|(it & k & u & s0 & dv & [=] & _)].
  - cbn [features]. split; [intros [(i' & dt' & [=])|(dv' & i' & dt' & [= -> -> -> ->])]; constructor|]. inversion 1; subst. right. now exists dv, i, dt.
  - cbn [features]. destruct (lookup "x" items) as [x|] eqn:EL.
    + split.
      * intros H. apply featured_dict with (x := x); [now apply lookup_some|exact H].
      * inversion 1 as [|? x' ? HB H']; subst. apply lookup_some in HB. assert (x' = x) as -> by congruence. exact H'.
    + split; [intros [(i' & dt' & [=])|(dv' & i' & dt' & [=])]|]. inversion 1 as [|? x' ? HB H']; subst. apply lookup_some in HB. congruence.
  - destruct HT as [(s0 & dv & i0 & dt & [=])|(it & k & u & s0 & dv & [=] & _)].
Qed.
Lemma featured_inj v s s' : featured v s -> featured v s' -> s = s'.
Proof.
  intros H H'. destruct H as [i s dt dv|items x s HB H].
  - inversion H'; subst. reflexivity.
  - inversion H' as [|? x' ? HB' H2]; subst. apply lookup_some in HB, HB'. assert (x' = x) as -> by congruence. apply shape_array in H, H2. congruence.
Qed.
Lemma featured_clear v s : featured v s -> unchecked v = false.
Proof. destruct 1 as [|items x s HB H]; [reflexivity|]. cbn [unchecked]. apply lookup_some in HB. now rewrite HB. Qed.
Lemma size_of_ok i v n : tensor_like v -> size_of i v = Ok n <-> exists s, featured v s /\ nth_error s i = Some n.
Proof.
  intros HT. unfold size_of. rewrite bind_ok. split.
  - intros (s & E & H). apply (features_shape _ _ HT) in E. exists s. split; [exact E|]. now destruct (nth_error s i) as [m|]; [injection H as ->|discriminate].
  - intros (s & E & H). apply (features_shape _ _ HT) in E. exists s. split; [exact E|]. now rewrite H.
Qed.
Lemma check_2d_ok v : tensor_like v -> check_2d v = Ok tt <-> opaque v \/ exists s n f, featured v s /\ sized s n f.
Proof.
  intros HT. unfold check_2d. rewrite <- opaque_iff. destruct (unchecked v) eqn:EU; [split; [now left|reflexivity]|]. rewrite bind_ok. split.
  - intros (s & E & H). apply (features_shape _ _ HT) in E. right. destruct (Nat.ltb_spec (length s) 2); [discriminate|]. destruct (proj1 (sized_iff s)) as (n & f & Hs); [lia|]. now exists s, n, f.
  - intros [[=]|(s & n & f & E & Hs)]. exists s. split; [now apply (features_shape _ _ HT)|]. destruct (Nat.ltb_spec (length s) 2); [|reflexivity]. destruct Hs as (r & ->). cbn [length] in *. lia.
Qed.
Lemma check_u_ok v f : tensor_like v -> check_u v f = Ok tt <-> opaque v \/ exists s m, featured v s /\ sized s m f.
Proof.
  intros HT. assert (HN : check_u v f = (do _ <- check_2d v; if unchecked v then Ok tt else do n <- size_of 1 v; if Nat.eqb n f then Ok tt else Err InductiveValidationError)).
  { destruct v; try reflexivity. destruct HT as [(s0 & dv & i & dt & [=])|(it & k & u & s0 & dv & [=] & _)]. }
  rewrite HN, bind_ok. clear HN. split.
  - intros ([] & E & H). apply (check_2d_ok _ HT) in E as [E|(s & n & g & E & Hs)]; [now left|]. right. rewrite (featured_clear _ _ E) in H. apply bind_ok in H as (m & E1 & H). apply (size_of_ok _ _ _ HT) in E1 as (s' & E1 & E2). assert (s' = s) as -> by (eapply featured_inj; eassumption).
    destruct (Nat.eqb_spec m f) as [->|]; [|discriminate]. destruct (sized_nth _ _ _ Hs) as (_ & _ & _ & E3). exists s, n. split; [exact E|]. congruence.
  - intros [H|(s & m & E & Hs)]; exists tt.
    + split; [apply (check_2d_ok _ HT); now left|]. apply opaque_iff in H. now rewrite H.
    + split; [apply (check_2d_ok _ HT); right; now exists s, m, f|]. rewrite (featured_clear _ _ E). apply bind_ok. exists f. split; [apply (size_of_ok _ _ _ HT); exists s; split; [exact E|now apply sized_nth in Hs]|]. now rewrite Nat.eqb_refl.
Qed.
Lemma check_y_ok y n : tensor_like y -> check_y y n = Ok tt <-> exists s dv, tensor y s dv /\ labelling s n.
Proof.
  intros HT. unfold check_y. rewrite bind_ok. split.
  - intros (s & E & H). apply shape_array in E as [(i & dt & ->)|(dv & E)].
    + destruct HT as [(s0 & dv & i0 & dt0 & [=])|(it & k & u & s0 & dv & [=] & _)].
    + exists s, dv. split; [exact E|]. apply labelling_iff. destruct (negb (Nat.eqb (length s) 1 || Nat.eqb (length s) 2)); [discriminate|]. destruct (negb (Nat.eqb (nth 0 s 0%nat) n)); [discriminate|]. now split.
  - intros (s & dv & E & H). exists s. split; [apply shape_array; right; now exists dv|]. apply labelling_iff in H as (-> & ->). reflexivity.
Qed.
Lemma tensor_like_some v : tensor_like v -> v <> Nothing.
Proof. intros H ->. destruct H as [(s0 & dv & i & dt & [=])|(it & k & u & s0 & dv & [=] & _)]. Qed.
Lemma check_rows_ok w s : (w = Nothing \/ tensor_like w) -> (s = Nothing \/ tensor_like s) ->
  check_rows w s = Ok tt <-> (w <> Nothing -> s <> Nothing -> exists sw ss m, featured w sw /\ featured s ss /\ hd_error sw = Some m /\ hd_error ss = Some m).
Proof.
  intros [->|HW]; [intros _; cbn [check_rows]; split; [intros _ []; reflexivity|reflexivity]|].
  assert (HN := tensor_like_some _ HW). intros [->|HS]; [replace (check_rows w Nothing) with (Ok tt) by (now destruct w); split; [intros _ _ []; reflexivity|reflexivity]|].
  assert (HN' := tensor_like_some _ HS).
  assert (HE : check_rows w s = (do a <- size_of 0 w; do b <- size_of 0 s; if Nat.eqb a b then Ok tt else Err InductiveValidationError)) by (destruct w, s; congruence || reflexivity).
  rewrite HE, bind_ok. split.
  - intros (a & E1 & H) _ _. apply bind_ok in H as (b & E2 & H). destruct (Nat.eqb_spec a b) as [<-|]; [|discriminate]. apply (size_of_ok _ _ _ HW) in E1 as (sw & F1 & E1). apply (size_of_ok _ _ _ HS) in E2 as (ss & F2 & E2). exists sw, ss, a. destruct sw, ss; try discriminate. repeat split; assumption.
  - intros H. destruct (H HN HN') as (sw & ss & m & F1 & F2 & E1 & E2). exists m. split; [apply (size_of_ok _ _ _ HW); exists sw; split; [exact F1|now destruct sw]|]. apply bind_ok. exists m. split; [apply (size_of_ok _ _ _ HS); exists ss; split; [exact F2|now destruct ss]|]. now rewrite Nat.eqb_refl.
Qed.
(* ----- devices ----- *)
Lemma tensors_dict items : tensors_in (Dict items) = flat_map (fun kv => tensors_in (snd kv)) items.
Proof. cbn [tensors_in]. induction items as [|kv r IH]; [reflexivity|]. cbn [flat_map]. now rewrite <- IH. Qed.
Lemma tensors_in_spec v dv : In dv (tensors_in v) <-> exists u s, inside u v /\ tensor u s dv.
Proof.
  revert dv. apply (val_deep (fun v => forall dv, In dv (tensors_in v) <-> exists u s, inside u v /\ tensor u s dv)); clear v.
  - intros dv. split; [intros []|]. intros (u & s & H & i & dt & ->). inversion H.
  - intros i s dt dv. split; [intros []|]. intros (u & s' & H & i' & dt' & ->). inversion H.
  - intros i s dt dv0 dv. split.
    + intros [<-|[]]. exists (Ten i s dt dv0), s. split; [constructor; discriminate|now exists i, dt].
    + intros (u & s' & H & i' & dt' & ->). inversion H; subst. now left.
  - intros items IH dv. rewrite tensors_dict, in_flat_map. split.
    + intros ((k, w) & Hw & H). cbn [snd] in H. apply (IH _ _ Hw) in H as (u & s & Hu & HT). exists u, s. split; [econstructor; eassumption|exact HT].
    + intros (u & s & H & HT). inversion H as [? HD|? ? k w Hw Hu]; subst; [destruct (HD items eq_refl)|]. exists (k, w). split; [exact Hw|]. cbn [snd]. apply (IH _ _ Hw). now exists u, s.
  - intros i s dv. split; [intros []|]. intros (u & s' & H & i' & dt' & ->). inversion H.
Qed.
Lemma expected_spec ex v : check_expected ex v = Ok tt <-> forall u, inside u v -> u = Nothing \/ exists s, tensor u s ex.
Proof.
  apply (val_deep (fun v => check_expected ex v = Ok tt <-> forall u, inside u v -> u = Nothing \/ exists s, tensor u s ex)); clear v.
  - split; [|reflexivity]. intros _ u H. inversion H. now left.
  - intros i s dt. split; [discriminate|]. intros H. destruct (H (Arr i s dt)) as [[=]|(s' & i' & dt' & [=])]. constructor; discriminate.
  - intros i s dt dv. cbn [check_expected]. destruct (device_eqb dv ex) eqn:E.
    + apply device_eqb_spec in E as ->. split; [|reflexivity]. intros _ u H. inversion H; subst. right. now exists s, i, dt.
    + split; [discriminate|]. intros H. destruct (H (Ten i s dt dv)) as [[=]|(s' & i' & dt' & [= _ _ _ ->])]; [constructor; discriminate|]. rewrite (proj2 (device_eqb_spec ex ex) eq_refl) in E. discriminate.
  - intros items IH. cbn [check_expected].
    assert (HG : forall l, (forall k w, In (k, w) l -> check_expected ex w = Ok tt <-> forall u, inside u w -> u = Nothing \/ exists s, tensor u s ex) ->
      ((fix go l := match l with [] => Ok tt | kv :: r => do _ <- check_expected ex (snd kv); go r end) l = Ok tt <-> forall (k : key) w u, In (k, w) l -> inside u w -> u = Nothing \/ exists s, tensor u s ex)).
    { induction l as [|(k, w) r IHl]; intros HH; [split; [intros _ k w u []|reflexivity]|]. cbn [snd]. rewrite bind_ok. split.
      - intros ([] & E & H) k' w' u [[= <- <-]|Hw] Hu; [exact (proj1 (HH k w (or_introl eq_refl)) E u Hu)|]. exact (proj1 (IHl (fun k w H => HH k w (or_intror H))) H k' w' u Hw Hu).
      - intros H. exists tt. split; [apply (proj2 (HH k w (or_introl eq_refl))); intros u Hu; apply (H k w u); [now left|exact Hu]|]. apply (proj2 (IHl (fun k w H => HH k w (or_intror H)))). intros k' w' u Hw Hu. apply (H k' w' u); [now right|exact Hu]. }
    rewrite (HG items IH). split.
    + intros H u Hu. inversion Hu as [? HD|? ? k w Hw Hu']; subst; [destruct (HD items eq_refl)|]. exact (H k w u Hw Hu').
    + intros H k w u Hw Hu. apply H. econstructor; eassumption.
  - intros i s. split; [discriminate|]. intros H. destruct (H (Other i s)) as [[=]|(s' & i' & dt' & [=])]. constructor; discriminate.
Qed.
Lemma check_all_ok ex vs : check_all ex vs = Ok tt <-> forall v u, In v vs -> inside u v -> u = Nothing \/ exists s, tensor u s ex.
Proof.
  induction vs as [|v r IH]; cbn [check_all]; [split; [intros _ v u []|reflexivity]|]. rewrite bind_ok. split.
  - intros ([] & E & H) w u [<-|Hw] Hu; [exact (proj1 (expected_spec ex v) E u Hu)|exact (proj1 IH H w u Hw Hu)].
  - intros H. exists tt. split; [apply expected_spec; intros u Hu; apply (H v u); [now left|exact Hu]|]. apply IH. intros w u Hw Hu. apply (H w u); [now right|exact Hu].
Qed.
Lemma held_fields d v : In v (held d) <-> fields d v.
Proof.
  unfold held, fields. rewrite in_app_iff. split; (intros [H|H]; [now left|right]).
  - destruct (d_views d) as [|items|k]; cbn [view_values] in H; [destruct H| |destruct H]. apply in_map_iff in H as ((k, w) & <- & Hw). exists items, k. now split.
  - destruct H as (items & k & -> & H). cbn [view_values]. apply in_map_iff. now exists (k, v).
Qed.
Lemma all_on_ok d ex : check_all ex (held d) = Ok tt <-> all_on d ex.
Proof.
  rewrite check_all_ok. unfold all_on, somewhere. split.
  - intros H u (v & Hv & Hu). apply (H v u); [now apply held_fields|exact Hu].
  - intros H v u Hv Hu. apply H. exists v. split; [now apply held_fields|exact Hu].
Qed.
Lemma together_ok d : check_same_device (held d) = Ok tt <-> together d.
Proof.
  assert (HS : forall dv, In dv (flat_map tensors_in (held d)) <-> exists u s, somewhere d u /\ tensor u s dv).
  { intros dv. rewrite in_flat_map. split.
    - intros (v & Hv & H). apply tensors_in_spec in H as (u & s & Hu & HT). exists u, s. split; [exists v; split; [now apply held_fields|exact Hu]|exact HT].
    - intros (u & s & (v & Hv & Hu) & HT). exists v. split; [now apply held_fields|]. apply tensors_in_spec. now exists u, s. }
  unfold check_same_device, together. destruct (flat_map tensors_in (held d)) as [|dv r] eqn:E.
  - split; [|reflexivity]. intros _ u u' s s' dv dv' Hu _ HT _. destruct (proj2 (HS dv)). now exists u, s.
  - destruct (forallb (fun dv' => device_eqb dv' dv) r) eqn:EF.
    + split; [|reflexivity]. intros _. rewrite forallb_forall in EF. assert (HA : forall d0, In d0 (dv :: r) -> d0 = dv) by (intros d0 [<-|H]; [reflexivity|apply device_eqb_spec; now apply EF]).
      intros u u' s s' d1 d2 Hu Hu' HT HT'. rewrite (HA d1), (HA d2); [reflexivity|apply HS; now exists u', s'|apply HS; now exists u, s].
    + split; [discriminate|]. intros H. exfalso. enough (forallb (fun dv' => device_eqb dv' dv) r = true) by congruence. apply forallb_forall. intros d0 Hd. apply device_eqb_spec.
      destruct (proj1 (HS dv)) as (u & s & Hu & HT); [now left|]. destruct (proj1 (HS d0)) as (u' & s' & Hu' & HT'); [now right|]. exact (H u' u s' s d0 dv Hu' Hu HT' HT).
Qed.
Lemma resolve_ok available r ex : resolve_device available r = Ok ex <-> (r = "cpu" /\ ex = Cpu \/ (r = "cuda" \/ r = "mps") /\ available r = true /\ ex = Acc r None).
Proof.
  unfold resolve_device. destruct (String.eqb_spec r "cpu") as [->|H1].
  - split; [intros [= <-]; left; now split|]. intros [(_ & ->)|([[=]|[=]] & _)]. reflexivity.
  - destruct (String.eqb_spec r "cuda") as [->|H2]; cbn [orb]; [|destruct (String.eqb_spec r "mps") as [->|H3]; cbn [orb]].
    + destruct (available "cuda"); split; try discriminate; [intros [= <-]; right; auto|intros [([=] & _)|(_ & _ & ->)]; reflexivity|intros [([=] & _)|(_ & [=] & _)]].
    + destruct (available "mps"); split; try discriminate; [intros [= <-]; right; auto|intros [([=] & _)|(_ & _ & ->)]; reflexivity|intros [([=] & _)|(_ & [=] & _)]].
    + split; [discriminate|]. intros [(-> & _)|([->| ->] & _)]; congruence.
Qed.

(* the part of to_torch_dataset before meta, as a check *)
Definition torch_checks (available : string -> bool) (d : data) (dev : option string) (same : bool) : result unit :=
  do xl <- require_tensor (d_xl d);
  do yl <- require_tensor (d_yl d);
  do _ <- check_2d xl;
  do n <- size_of 0 xl;
  do _ <- check_y yl n;
  do xu <- optionally require_tensor (d_xu d);
  do xw <- optionally require_tensor (d_xw d);
  do xs <- optionally require_tensor (d_xs d);
  do nf <- size_of 1 xl;
  do _ <- check_u xu nf;
  do _ <- check_u xw nf;
  do _ <- check_u xs nf;
  do _ <- check_rows xw xs;
  do views <- require_views require_tensor (d_views d);
  let d1 := {| d_xl := xl; d_yl := yl; d_xu := xu; d_xw := xw; d_xs := xs; d_views := views; d_meta := d_meta d |} in
  do _ <- (if same then check_same_device (held d1) else Ok tt);
  match dev with
  | Some r => if String.eqb r "auto" then Ok tt else do ex <- resolve_device available r; check_all ex (held d1)
  | None => Ok tt
  end.
Lemma optionally_tensor v w : optionally require_tensor v = Ok w <-> w = v /\ (v = Nothing \/ tensor_like v).
Proof.
  rewrite optionally_ok, require_tensor_ok. split.
  - intros [(-> & ->)|(_ & -> & H)]; auto.
  - intros (-> & [->|H]); [now left|]. right. split; [now apply tensor_like_some|now split].
Qed.
Lemma check_u_opt v f : (v = Nothing \/ tensor_like v) -> check_u v f = Ok tt <-> v = Nothing \/ (tensor_like v /\ (opaque v \/ exists s m, featured v s /\ sized s m f)).
Proof.
  intros [->|HT]; [split; [now left|reflexivity]|]. rewrite (check_u_ok _ _ HT). split; [intros H; right; now split|]. intros [->|(_ & H)]; [destruct (tensor_like_some _ HT eq_refl)|exact H].
Qed.
Lemma checks_iff available d dev same : torch_checks available d dev same = Ok tt <-> torch_ready available d dev same.
Proof.
  unfold torch_checks, torch_ready. split.
  - intros H. apply bind_ok in H as (xl & E1 & H). apply require_tensor_ok in E1 as (-> & T1). apply bind_ok in H as (yl & E2 & H). apply require_tensor_ok in E2 as (-> & T2). apply bind_ok in H as ([] & E3 & H). apply bind_ok in H as (n & E4 & H). apply bind_ok in H as ([] & E5 & H).
    apply bind_ok in H as (xu & E6 & H). apply optionally_tensor in E6 as (-> & T3). apply bind_ok in H as (xw & E6 & H). apply optionally_tensor in E6 as (-> & T4). apply bind_ok in H as (xs & E6 & H). apply optionally_tensor in E6 as (-> & T5).
    apply bind_ok in H as (f & E6 & H). apply bind_ok in H as ([] & U1 & H). apply bind_ok in H as ([] & U2 & H). apply bind_ok in H as ([] & U3 & H). apply bind_ok in H as ([] & R & H). apply bind_ok in H as (vs & V & H). apply (require_views_ok _ tensor_like _ _ require_tensor_ok) in V as (-> & V).
    replace {| d_xl := d_xl d; d_yl := d_yl d; d_xu := d_xu d; d_xw := d_xw d; d_xs := d_xs d; d_views := d_views d; d_meta := d_meta d |} with d in H by (now destruct d). apply bind_ok in H as ([] & S0 & D0).
    apply (size_of_ok _ _ _ T1) in E4 as (sl & F1 & E4). apply (size_of_ok _ _ _ T1) in E6 as (sl' & F1' & E6). assert (sl' = sl) as -> by (eapply featured_inj; eassumption).
    apply (check_y_ok _ _ T2) in E5 as (sy & dy & HY & HL). exists sl, sy, n, f, dy. split; [exact T1|]. split; [exact F1|]. split; [destruct sl as [|a [|b r]]; try discriminate; injection E4 as ->; injection E6 as ->; now exists r|]. split; [exact HY|]. split; [exact HL|]. split.
    { intros v [<-|[<-|[<-|[]]]]; apply (check_u_opt _ f); assumption. }
    split; [apply (check_rows_ok _ _ T4 T5); exact R|]. split; [exact V|]. split; [intros ->; now apply together_ok|].
    intros r -> Hr. destruct (String.eqb_spec r "auto"); [contradiction|]. apply bind_ok in D0 as (ex & D1 & D2). exists ex. split; [now apply resolve_ok|now apply all_on_ok].
  - intros (sl & sy & n & f & dy & T1 & F1 & Hs & HY & HL & HU & HR & HV & HT & HD). destruct (sized_nth _ _ _ Hs) as (_ & _ & N0 & N1).
    assert (T2 : tensor_like (d_yl d)) by (left; now exists sy, dy).
    assert (TU : forall v, In v [d_xu d; d_xw d; d_xs d] -> v = Nothing \/ tensor_like v) by (intros v Hv; destruct (HU v Hv) as [H|(H & _)]; auto).
    rewrite (proj2 (require_tensor_ok (d_xl d) (d_xl d)) (conj eq_refl T1)). cbn [bind]. rewrite (proj2 (require_tensor_ok (d_yl d) (d_yl d)) (conj eq_refl T2)). cbn [bind].
    rewrite (proj2 (check_2d_ok _ T1)); [|right; now exists sl, n, f]. cbn [bind]. rewrite (proj2 (size_of_ok 0 _ n T1)); [|now exists sl]. cbn [bind]. rewrite (proj2 (check_y_ok _ n T2)); [|now exists sy, dy]. cbn [bind].
    assert (I1 : In (d_xu d) [d_xu d; d_xw d; d_xs d]) by now left. assert (I2 : In (d_xw d) [d_xu d; d_xw d; d_xs d]) by (right; now left). assert (I3 : In (d_xs d) [d_xu d; d_xw d; d_xs d]) by (right; right; now left).
    rewrite (proj2 (optionally_tensor (d_xu d) (d_xu d)) (conj eq_refl (TU _ I1))). cbn [bind]. rewrite (proj2 (optionally_tensor (d_xw d) (d_xw d)) (conj eq_refl (TU _ I2))). cbn [bind]. rewrite (proj2 (optionally_tensor (d_xs d) (d_xs d)) (conj eq_refl (TU _ I3))). cbn [bind].
    rewrite (proj2 (size_of_ok 1 _ f T1)); [|now exists sl]. cbn [bind].
    rewrite (proj2 (check_u_opt _ f (TU _ I1)) (HU _ I1)). cbn [bind]. rewrite (proj2 (check_u_opt _ f (TU _ I2)) (HU _ I2)). cbn [bind]. rewrite (proj2 (check_u_opt _ f (TU _ I3)) (HU _ I3)). cbn [bind].
    rewrite (proj2 (check_rows_ok _ _ (TU _ I2) (TU _ I3)) HR). cbn [bind]. rewrite (proj2 (require_views_ok _ tensor_like _ (d_views d) require_tensor_ok) (conj eq_refl HV)). cbn [bind].
    replace {| d_xl := d_xl d; d_yl := d_yl d; d_xu := d_xu d; d_xw := d_xw d; d_xs := d_xs d; d_views := d_views d; d_meta := d_meta d |} with d by (now destruct d).
    assert (HS : (if same then check_same_device (held d) else Ok tt) = Ok tt) by (destruct same; [apply together_ok; now apply HT|reflexivity]). rewrite HS. cbn [bind].
    destruct dev as [r|]; [|reflexivity]. destruct (String.eqb_spec r "auto") as [|Hr]; [reflexivity|]. destruct (HD r eq_refl Hr) as (ex & H1 & H2). apply bind_ok. exists ex. split; [now apply resolve_ok|now apply all_on_ok].
Qed.
Lemma torch_split available np_device as_long as_tensor d dev same d' :
  to_torch_dataset available np_device as_long as_tensor (Some d) dev same = Ok d' <->
  torch_ready available d dev same /\ exists m, move_meta np_device as_long as_tensor d = Ok m /\
    d' = {| d_xl := d_xl d; d_yl := d_yl d; d_xu := d_xu d; d_xw := d_xw d; d_xs := d_xs d; d_views := d_views d; d_meta := m |}.
Proof.
  rewrite <- checks_iff. unfold to_torch_dataset, torch_checks. split.
  - intros H. apply bind_ok in H as (xl & E1 & H). rewrite E1. cbn [bind]. apply require_tensor_ok in E1 as (-> & T1). apply bind_ok in H as (yl & E2 & H). rewrite E2. cbn [bind]. apply require_tensor_ok in E2 as (-> & T2). apply bind_ok in H as ([] & E3 & H). rewrite E3. cbn [bind]. apply bind_ok in H as (n & E4 & H). rewrite E4. cbn [bind]. apply bind_ok in H as ([] & E5 & H). rewrite E5. cbn [bind].
    apply bind_ok in H as (xu & E6 & H). rewrite E6. cbn [bind]. apply optionally_tensor in E6 as (-> & T3). apply bind_ok in H as (xw & E6 & H). rewrite E6. cbn [bind]. apply optionally_tensor in E6 as (-> & T4). apply bind_ok in H as (xs & E6 & H). rewrite E6. cbn [bind]. apply optionally_tensor in E6 as (-> & T5).
    apply bind_ok in H as (f & E6 & H). rewrite E6. cbn [bind]. apply bind_ok in H as ([] & U1 & H). rewrite U1. cbn [bind]. apply bind_ok in H as ([] & U2 & H). rewrite U2. cbn [bind]. apply bind_ok in H as ([] & U3 & H). rewrite U3. cbn [bind]. apply bind_ok in H as ([] & R & H). rewrite R. cbn [bind]. apply bind_ok in H as (vs & V & H). rewrite V. cbn [bind]. apply (require_views_ok _ tensor_like _ _ require_tensor_ok) in V as (-> & V).
    replace {| d_xl := d_xl d; d_yl := d_yl d; d_xu := d_xu d; d_xw := d_xw d; d_xs := d_xs d; d_views := d_views d; d_meta := d_meta d |} with d in * by (now destruct d). apply bind_ok in H as ([] & S0 & H). rewrite S0. cbn [bind]. apply bind_ok in H as ([] & D0 & H). split; [exact D0|]. apply bind_ok in H as (m & M & H). injection H as <-. exists m. now split.
  - intros (H & m & M & ->). apply bind_ok in H as (xl & E1 & H). rewrite E1. cbn [bind]. apply require_tensor_ok in E1 as (-> & T1). apply bind_ok in H as (yl & E2 & H). rewrite E2. cbn [bind]. apply require_tensor_ok in E2 as (-> & T2). apply bind_ok in H as ([] & E3 & H). rewrite E3. cbn [bind]. apply bind_ok in H as (n & E4 & H). rewrite E4. cbn [bind]. apply bind_ok in H as ([] & E5 & H). rewrite E5. cbn [bind].
    apply bind_ok in H as (xu & E6 & H). rewrite E6. cbn [bind]. apply optionally_tensor in E6 as (-> & T3). apply bind_ok in H as (xw & E6 & H). rewrite E6. cbn [bind]. apply optionally_tensor in E6 as (-> & T4). apply bind_ok in H as (xs & E6 & H). rewrite E6. cbn [bind]. apply optionally_tensor in E6 as (-> & T5).
    apply bind_ok in H as (f & E6 & H). rewrite E6. cbn [bind]. apply bind_ok in H as ([] & U1 & H). rewrite U1. cbn [bind]. apply bind_ok in H as ([] & U2 & H). rewrite U2. cbn [bind]. apply bind_ok in H as ([] & U3 & H). rewrite U3. cbn [bind]. apply bind_ok in H as ([] & R & H). rewrite R. cbn [bind]. apply bind_ok in H as (vs & V & H). rewrite V. cbn [bind]. apply (require_views_ok _ tensor_like _ _ require_tensor_ok) in V as (-> & V).
    replace {| d_xl := d_xl d; d_yl := d_yl d; d_xu := d_xu d; d_xw := d_xw d; d_xs := d_xs d; d_views := d_views d; d_meta := d_meta d |} with d in * by (now destruct d). apply bind_ok in H as ([] & S0 & D0). rewrite S0. cbn [bind]. rewrite D0. cbn [bind]. rewrite M. reflexivity.
Qed.
