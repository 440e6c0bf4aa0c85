(* Proofs about plan dictionaries. *)
From Coq Require Import String SpecFloat.
From Verif Require Import Prelude FloatModel PyValue SamplingModel SampleServiceModel PlanModel PlanSpec
  SampleServiceProofs.
Local Open Scope list_scope.
Local Open Scope string_scope.

Lemma py_ints_map o l : py_ints o (map PInt l) = Ok l.
Proof. induction l as [|z r IH]; cbn; [reflexivity|]. rewrite IH. reflexivity. Qed.

Lemma split_from_dict o s : exists d, split_dict s = PDict d /\ split_from o d = Ok s.
Proof. destruct s; cbn [split_dict]; eexists; (split; [reflexivity|]); reflexivity. Qed.

Lemma labeling_from_dict o c :
  exists d, labeling_dict c = PDict d /\
    labeling_from o d = Ok (c_mode c, c_per_class c, c_lmin c, c_strategy c, c_fixed c).
Proof.
  unfold labeling_dict. eexists. split; [reflexivity|].
  unfold labeling_from. cbn [assert_known bind].
  destruct (c_mode c), (c_strategy c), (c_fixed c) as [l|]; cbn; try rewrite py_ints_map; reflexivity.
Qed.

Lemma imbalance_from_dict o c im mx al :
  opt_conv (py_int o) PInt (c_imax c) = Ok mx ->
  opt_conv (py_float o) PFloat (c_alpha c) = Ok al ->
  imbalance_dict o c = Ok im ->
  exists d, im = PDict d /\
    imbalance_from o d = Ok (c_ikind c, c_apply_to c, mx, al, c_imin c).
Proof.
  intros H1 H2 H. unfold imbalance_dict in H. rewrite H1, H2 in H. cbn in H. injection H as <-.
  eexists. split; [reflexivity|]. unfold imbalance_from.
  destruct (c_ikind c), (c_apply_to c); reflexivity.
Qed.

Lemma from_as o c d :
  as_dict o c = Ok d ->
  exists mx al,
  opt_conv (py_int o) PInt (c_imax c) = Ok mx /\ opt_conv (py_float o) PFloat (c_alpha c) = Ok al /\
  from_dict o d = Ok {| c_split := c_split c; c_mode := c_mode c; c_per_class := c_per_class c;
        c_lmin := c_lmin c; c_strategy := c_strategy c; c_fixed := c_fixed c; c_ikind := c_ikind c;
        c_apply_to := c_apply_to c; c_imax := mx; c_alpha := al; c_imin := c_imin c;
        c_policy := c_policy c |}.
Proof.
  intros H. unfold as_dict in H. inv_bind H. injection H as <-.
  pose proof E as E'. unfold imbalance_dict in E'. inv_bind E'. inv_bind E'. clear E'.
  exists a0, a1. split; [exact E0|]. split; [exact E1|].
  destruct (split_from_dict o (c_split c)) as (ds & Hs & Fs).
  destruct (labeling_from_dict o c) as (dl & Hl & Fl).
  destruct (imbalance_from_dict o c a a0 a1 E0 E1 E) as (di & -> & Fi).
  rewrite Hs, Hl.
  unfold from_dict, get_or, lookup. cbn [assert_known keys map fst forallb memS existsb plan_keys
    String.eqb find snd Ascii.eqb eqb orb andb bind ensure_mapping policy_dict].
  rewrite Fs. cbn [bind]. rewrite Fl. cbn [bind]. rewrite Fi. cbn [bind].
  destruct (c_policy c); reflexivity.
Qed.

Lemma plan_round_trip o c :
  normalised c -> exists d, as_dict o c = Ok d /\ from_dict o d = Ok c.
Proof.
  intros [Hm Ha].
  assert (H1 : opt_conv (py_int o) PInt (c_imax c) = Ok (c_imax c)).
  { destruct Hm as [-> |[z ->]]; reflexivity. }
  assert (H2 : opt_conv (py_float o) PFloat (c_alpha c) = Ok (c_alpha c)).
  { destruct Ha as [-> |[z ->]]; reflexivity. }
  assert (exists d, as_dict o c = Ok d) as [d Hd].
  { unfold as_dict, imbalance_dict. rewrite H1, H2. cbn. eauto. }
  exists d. split; [exact Hd|]. destruct (from_as _ _ _ Hd) as (mx & al & E1 & E2 & ->).
  rewrite H1 in E1. rewrite H2 in E2. injection E1 as <-. injection E2 as <-.
  destruct c; reflexivity.
Qed.

Lemma opt_conv_int_idem o v mx : opt_conv (py_int o) PInt v = Ok mx ->
  mx = PNone \/ exists z, mx = PInt z.
Proof.
  unfold opt_conv. destruct v; intros H; [injection H as <-; auto| | | | | |];
    inv_bind H; injection H as <-; eauto.
Qed.
Lemma opt_conv_float_idem o v al : opt_conv (py_float o) PFloat v = Ok al ->
  al = PNone \/ exists f, al = PFloat f.
Proof.
  unfold opt_conv. destruct v; intros H; [injection H as <-; auto| | | | | |];
    inv_bind H; injection H as <-; eauto.
Qed.

(* the published dictionary of any plan is canonical: reading it back and writing it again changes
   nothing *)
Lemma plan_canonical o c d :
  as_dict o c = Ok d ->
  exists c', from_dict o d = Ok c' /\ normalised c' /\ as_dict o c' = Ok d.
Proof.
  intros H. destruct (from_as _ _ _ H) as (mx & al & E1 & E2 & E3). eexists. split; [exact E3|].
  pose proof (opt_conv_int_idem _ _ _ E1) as Hm. pose proof (opt_conv_float_idem _ _ _ E2) as Ha.
  split; [split; assumption|].
  unfold as_dict in H |- *. inv_bind H. injection H as <-.
  assert (Hi : imbalance_dict o {| c_split := c_split c; c_mode := c_mode c; c_per_class := c_per_class c;
        c_lmin := c_lmin c; c_strategy := c_strategy c; c_fixed := c_fixed c; c_ikind := c_ikind c;
        c_apply_to := c_apply_to c; c_imax := mx; c_alpha := al; c_imin := c_imin c;
        c_policy := c_policy c |} = Ok a).
  { unfold imbalance_dict in E |- *. rewrite E1, E2 in E. cbn in E |- *.
    destruct Hm as [-> |[z ->]], Ha as [-> |[f ->]]; cbn; exact E. }
  rewrite Hi. reflexivity.
Qed.

Lemma memS_In k l : memS k l = true <-> In k l.
Proof.
  unfold memS. rewrite existsb_exists. split.
  - intros (x & Hx & He). apply String.eqb_eq in He. subst. exact Hx.
  - intros H. exists k. split; [exact H|]. apply String.eqb_refl.
Qed.

Lemma assert_known_ok d allowed u :
  assert_known d allowed = Ok u -> forall k, In k (keys d) -> In k allowed.
Proof.
  unfold assert_known. destruct (forallb _ _) eqn:H; [|discriminate]. intros _ k Hk.
  rewrite forallb_forall in H. apply memS_In, H, Hk.
Qed.

Lemma section_mapping d name s dflt :
  lookup d name = Some (PDict s) -> ensure_mapping (get_or d name dflt) = Ok s.
Proof. intros H. unfold get_or. rewrite H. reflexivity. Qed.

Lemma from_dict_known o d c : from_dict o d = Ok c -> ~ has_unknown_key d.
Proof.
  intros E. unfold from_dict in E. inv_bind E.
  pose proof (assert_known_ok _ _ _ E0) as Htop.
  inv_bind E. inv_bind E. inv_bind E. inv_bind E. destruct a3 as [[[[m pc] lmn] st] fx].
  inv_bind E. inv_bind E. destruct a4 as [[[[ik it] mx] al] imn]. inv_bind E. inv_bind E.
  intros [(k & Hk & Hn)|[(k & (s & Hs & Hk) & Hn)|[(k & (s & Hs & Hk) & Hn)|
          [(k & (s & Hs & Hk) & Hn)|(k & (s & Hs & Hk) & Hn)]]]].
  - apply Hn, Htop, Hk.
  - rewrite (section_mapping _ _ _ _ Hs) in E1. injection E1 as <-.
    unfold split_from in E2. destruct (String.eqb _ "kfold") in E2.
    + unfold kfold_from in E2. inv_bind E2. apply Hn.
      pose proof (assert_known_ok _ _ _ E1 k Hk) as H. unfold kfold_keys in H.
      unfold documented_split_key. cbn in *. tauto.
    + destruct (String.eqb _ "holdout") in E2; [|discriminate].
      unfold holdout_from in E2. inv_bind E2. apply Hn.
      pose proof (assert_known_ok _ _ _ E1 k Hk) as H. unfold holdout_keys in H.
      unfold documented_split_key. cbn in *. tauto.
  - rewrite (section_mapping _ _ _ _ Hs) in E3. injection E3 as <-.
    unfold labeling_from in E4. inv_bind E4. apply Hn. exact (assert_known_ok _ _ _ E3 k Hk).
  - rewrite (section_mapping _ _ _ _ Hs) in E5. injection E5 as <-.
    unfold imbalance_from in E6. inv_bind E6. apply Hn. exact (assert_known_ok _ _ _ E5 k Hk).
  - rewrite (section_mapping _ _ _ _ Hs) in E7. injection E7 as <-.
    unfold policy_from in E8. inv_bind E8. apply Hn. exact (assert_known_ok _ _ _ E7 k Hk).
Qed.

Lemma from_dict_rejects o d :
  has_unknown_key d -> exists e, from_dict o d = Err e.
Proof.
  intros H. destruct (from_dict o d) as [c|e] eqn:E; [|eauto].
  exfalso. exact (from_dict_known _ _ _ E H).
Qed.

Lemma from_dict_top_level o d :
  (exists k, In k (keys d) /\ ~ In k ["split"; "labeling"; "imbalance"; "policy"]) ->
  from_dict o d = Err ValueError.
Proof.
  intros (k & Hk & Hn). unfold from_dict.
  destruct (assert_known d plan_keys) as [u|e] eqn:E.
  - exfalso. apply Hn. exact (assert_known_ok _ _ _ E k Hk).
  - unfold assert_known in E. destruct (forallb _ _); [discriminate|]. injection E as <-. reflexivity.
Qed.

(* only lookups matter: the order of the keys is irrelevant *)
Lemma from_dict_order o d d' :
  (forall k, lookup d k = lookup d' k) -> (forall k, In k (keys d) <-> In k (keys d')) ->
  from_dict o d = from_dict o d'.
Proof.
  intros Hl Hk. unfold from_dict, get_or. rewrite !Hl.
  assert (assert_known d plan_keys = assert_known d' plan_keys) as ->; [|reflexivity].
  unfold assert_known.
  assert (forallb (fun k => memS k plan_keys) (keys d) = forallb (fun k => memS k plan_keys) (keys d'))
    as ->; [|reflexivity].
  apply eq_true_iff_eq. rewrite !forallb_forall. split; intros H k Hi; apply H, Hk, Hi.
Qed.
