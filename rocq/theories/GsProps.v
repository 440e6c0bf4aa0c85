(* C125: the specifications of graphs and the weights of edges. *)
From Coq Require Import String SpecFloat QArith Lqa ZifyBool.
From Verif Require Import Prelude FloatModel PyValue SamplingSpec PlapSpec PlapProofs PlapProps GsModel GsSpec GsProofs.
Local Open Scope string_scope.
Local Open Scope Z_scope.
Local Open Scope list_scope.

(* a specification written as a dictionary is read back as it was *)
Theorem C125_round_trip : forall o,
  (forall w, weights_from o (weights_dict w) = w) /\ (forall s, builder_from o (builder_dict s) = Ok s) /\ (forall s, featurizer_from o (featurizer_dict s) = Ok s).
Proof.
  intros o. split; [apply weights_round|]. split.
  - intros s. unfold builder_from. change (get_or (builder_dict s) "weights" (PDict [])) with (PDict (weights_dict (bs_weights s))). cbn [py_dict bind]. rewrite weights_round.
    unfold get, get_or, lookup, builder_dict. cbn. destruct s as [? ? k r ? ? ? ? ? ? ? na ? ? ? ? ? ? ?]. cbn. reflexivity.
  - intros s. unfold featurizer_from, get_or, lookup, featurizer_dict. cbn. destruct s. reflexivity.
Qed.
Print Assumptions C125_round_trip.
(* so different specifications have different dictionaries, hence different fingerprint inputs *)
Theorem C125_distinct : forall s s', builder_dict s = builder_dict s' -> s = s'.
Proof.
  intros s s' H. assert (o : Oracle) by (constructor; intros; [exact None|exact None|exact ""]).
  destruct (C125_round_trip o) as (_ & R & _). assert (A := R s). rewrite H, (R s') in A. injection A as <-. reflexivity.
Qed.
Print Assumptions C125_distinct.
(* validate() accepts exactly these *)
Theorem C125_validate : forall o,
  (forall s, builder_validate o s = Ok tt <-> valid_builder o s) /\ (forall s, featurizer_validate s = Ok tt <-> valid_featurizer s).
Proof. intros o. split; [apply builder_ok|apply featurizer_ok]. Qed.
Print Assumptions C125_validate.
(* other keys are ignored *)
Theorem C125_known_keys : forall o d d',
  ((forall k, In k builder_keys -> lookup d k = lookup d' k) -> builder_from o d = builder_from o d') /\
  ((forall k, In k featurizer_keys -> lookup d k = lookup d' k) -> featurizer_from o d = featurizer_from o d').
Proof.
  intros o d d'. split; intros H.
  - unfold builder_from, get, get_or. repeat (rewrite H by (cbn; tauto)). reflexivity.
  - unfold featurizer_from, get_or. repeat (rewrite H by (cbn; tauto)). reflexivity.
Qed.
Print Assumptions C125_known_keys.
(* a key missing from the dictionary of a featurizer stands for the default of the constructor *)
Theorem C125_defaults : forall o d, featurizer_from o d = featurizer_from o (d ++ featurizer_dict featurizer_default) /\ featurizer_from o [] = Ok featurizer_default /\
  featurizer_validate featurizer_default = Ok tt.
Proof.
  intros o d. split; [|split; [reflexivity|apply featurizer_ok; unfold valid_featurizer; cbn; repeat split; try lia; try (left; reflexivity); try discriminate; try (intros v [<-|[]]; left; reflexivity);
    left; right; eexists; (split; [reflexivity|reflexivity])]].
  assert (G : forall k v, lookup (featurizer_dict featurizer_default) k = Some v -> get_or (d ++ featurizer_dict featurizer_default) k v = get_or d k v).
  { intros k v Hk. unfold get_or, lookup in *. assert (F : forall l, find (fun p : string * pyval => String.eqb (fst p) k) (l ++ featurizer_dict featurizer_default) =
      match find (fun p => String.eqb (fst p) k) l with Some p => Some p | None => find (fun p => String.eqb (fst p) k) (featurizer_dict featurizer_default) end).
    { induction l as [|a l IH]; [reflexivity|]. cbn [app find]. destruct (String.eqb (fst a) k); [reflexivity|exact IH]. }
    rewrite F. destruct (find _ d); [reflexivity|]. rewrite Hk. reflexivity. }
  unfold featurizer_from. rewrite !G by reflexivity. reflexivity.
Qed.
Print Assumptions C125_defaults.
(* not so for a builder: the dictionary without keys gives a specification that validate() refuses *)
Theorem C125_builder_defaults_refuted : forall o,
  ~ (forall d, builder_from o d = builder_from o (d ++ builder_dict builder_default)) /\
  builder_validate o builder_default = Ok tt /\ exists s, builder_from o [] = Ok s /\ builder_validate o s = Err GraphValidationError.
Proof.
  intros o. split; [|split].
  - intros H. specialize (H []). cbn [app] in H. destruct (C125_round_trip o) as (_ & R & _). rewrite R in H. discriminate H.
  - apply builder_ok. unfold valid_builder, valid_scheme, valid_weights, positive_int. cbn. repeat split; try lia; auto.
    + left. split; [reflexivity|]. exists 30. split; [reflexivity|lia].
    + right. left. split; [reflexivity|]. exists f_0_5. split; [left; split; reflexivity|]. left. right. eexists. split; reflexivity.
  - eexists. split; reflexivity.
Qed.
Print Assumptions C125_builder_defaults_refuted.
(* a NaN passes every check "must be > 0" *)
Theorem C125_nan_refuted : forall o,
  ~ (forall s, builder_validate o s = Ok tt -> ws_kind (bs_weights s) = "heat" -> exists f, sigma_reads o (ws_sigma (bs_weights s)) f /\ above_zero f).
Proof.
  intros o H.
  set (s := {| bs_scheme := "epsilon"; bs_metric := "cosine"; bs_k := PNone; bs_radius := PFloat S754_nan; bs_symmetrize := "mutual";
    bs_weights := {| ws_kind := "heat"; ws_sigma := PFloat S754_nan |}; bs_normalize := "rw"; bs_self_loops := true; bs_backend := "auto"; bs_chunk_size := 512; bs_feature_field := "features.X";
    bs_n_anchors := PNone; bs_anchors_k := 5; bs_anchors_method := "random"; bs_candidate_limit := 1000; bs_faiss_exact := false; bs_faiss_hnsw_m := 32; bs_faiss_ef_search := 64; bs_faiss_ef_construction := 200 |}).
  destruct (H s eq_refl eq_refl) as (f & [[_ Hf]|[Hf _]] & Hp); [|discriminate Hf]. cbn in Hf. injection Hf as <-. destruct Hp as [Hp|(q & Hp & _)]; discriminate Hp.
Qed.
Print Assumptions C125_nan_refuted.
(* with a validated specification the weights are computed, one per distance, by the documented formula;
   heat weights are in (0, 1], 1 at distance 0, and fall with the distance *)
Theorem C125_edge_weights : forall o ex metric w d, exp_ok ex -> weights_validate o metric w = Ok tt ->
  exists l, compute_edge_weights o f64_value ex metric w d = Ok l /\ length l = length d /\
  (ws_kind w = "binary" -> l = map (fun _ => Some 1%Q) d) /\
  (ws_kind w = "cosine" -> l = map (fun x => Some (1 - x)%Q) d) /\
  (ws_kind w = "heat" -> forall s q, sigma_reads o (ws_sigma w) s -> f64_value s = Some q ->
     (0 < q)%Q /\ exists h : Q -> Q, l = map (fun x => Some (h x)) d /\ (forall x, h x = ex (- (x * x) / (2 * q * q))%Q) /\
     (forall x, 0 < h x <= 1)%Q /\ (h 0 == 1)%Q /\ forall x y, (0 <= x)%Q -> (x < y)%Q -> (h y < h x)%Q).
Proof.
  intros o ex metric w d (E0 & EP & EM & EC) HV. pose proof (proj1 (weights_ok o metric w) HV) as [HK|[[HK (s & Hs & Hp)]|[HK HM]]]; unfold compute_edge_weights; rewrite HK; cbn [String.eqb Ascii.eqb Bool.eqb].
  - eexists. split; [reflexivity|]. split; [apply map_length|]. split; [reflexivity|]. split; discriminate.
  - pose proof Hs as Hs'. apply sigma_float_reads in Hs'. rewrite Hs'. cbn [bind]. rewrite (proj2 (leb_zero s) Hp).
    eexists. split; [reflexivity|]. split; [apply map_length|]. split; [discriminate|]. split; [discriminate|]. intros _ s' q Hs1 Hq. apply sigma_float_reads in Hs1. rewrite Hs' in Hs1. injection Hs1 as <-.
    assert (Q0 : (0 < q)%Q). { destruct Hp as [[->|(q' & Hq' & H)]| ->]; [discriminate Hq| |discriminate Hq]. rewrite Hq in Hq'. injection Hq' as <-. exact H. }
    split; [exact Q0|]. exists (fun x => ex (- (x * x) / (2 * q * q))%Q).
    split. { apply map_ext. intros x. destruct s; try discriminate Hq; rewrite Hq; reflexivity. }
    assert (PQ : (0 < / (2 * q * q))%Q) by (apply Qinv_lt_0_compat; nra).
    split; [reflexivity|]. split.
    + intros x. split; [apply EP|]. assert (S : (- (x * x) / (2 * q * q) <= 0)%Q) by (unfold Qdiv; nra).
      apply Qle_lteq in S as [S|S]; [rewrite <- E0; apply Qlt_le_weak, EM, S|rewrite (EC _ _ S), E0; apply Qle_refl].
    + split; [rewrite <- E0; apply EC; unfold Qdiv; ring|]. intros x y Hx Hxy. apply EM. unfold Qdiv. assert (S : (x * x < y * y)%Q) by nra. nra.
  - subst metric. cbn [negb]. eexists. split; [reflexivity|]. split; [apply map_length|]. split; [discriminate|]. split; [reflexivity|discriminate].
Qed.
Print Assumptions C125_edge_weights.
(* cosine weights of points more than a right angle apart are negative *)
Theorem C125_negative_refuted : forall o ex,
  ~ (forall metric w d l x, weights_validate o metric w = Ok tt -> (forall y, In y d -> (0 <= y <= 2)%Q) -> compute_edge_weights o f64_value ex metric w d = Ok l -> In (Some x) l -> (0 <= x)%Q).
Proof.
  intros o ex H. assert (C := H "cosine" {| ws_kind := "cosine"; ws_sigma := PNone |} [3 # 2]%Q _ (1 - (3 # 2))%Q eq_refl ltac:(intros y [<-|[]]; split; discriminate) eq_refl ltac:(left; reflexivity)).
  apply C. reflexivity.
Qed.
Print Assumptions C125_negative_refuted.
(* the hypotheses of C125_edge_weights: an exponential and a validated heat specification; and a validated anchor builder *)
Example C125_case : forall o, exp_ok toy_exp /\ weights_validate o "euclidean" {| ws_kind := "heat"; ws_sigma := PInt 2 |} = Ok tt /\ sigma_reads o (PInt 2) (f64_of_Z 2) /\ (exists q, f64_value (f64_of_Z 2) = Some q /\ q == 2)%Q /\
  exists s, builder_from o [("scheme", PStr "anchor"); ("k", PInt 5); ("n_anchors", PInt 10); ("typo", PNone)] = Ok s /\ builder_validate o s = Ok tt.
Proof.
  intros o. split; [exact toy_exp_ok|]. split; [reflexivity|]. split; [left; split; reflexivity|]. split; [eexists; split; [reflexivity|vm_compute; reflexivity]|]. eexists. split; reflexivity.
Qed.
