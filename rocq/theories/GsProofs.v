(* Lemmas for the specifications of graphs. *)
From Coq Require Import String SpecFloat QArith Qpower Lqa ZifyBool.
From Verif Require Import Prelude FloatModel PyValue SamplingSpec GsModel GsSpec.
Local Open Scope string_scope.
Local Open Scope Z_scope.
Local Open Scope list_scope.

Lemma one_of_In s l : one_of s l = true <-> In s l.
Proof. unfold one_of. rewrite existsb_exists. split; [intros (x & Hx & E); apply String.eqb_eq in E; subst x; exact Hx|intros H; exists s; split; [exact H|apply String.eqb_refl]]. Qed.
Lemma reject_ok b : reject b = Ok tt <-> b = false.
Proof. unfold reject. destruct b; split; intros H; try reflexivity; discriminate H. Qed.
Lemma bind_unit (r : result unit) (k : result unit) : (do _ <- r; k) = Ok tt <-> r = Ok tt /\ k = Ok tt.
Proof. destruct r as [[]|e]; cbn [bind]; split; intros H; try (split; [reflexivity|exact H]); try apply H; discriminate H || (destruct H as [H _]; discriminate H). Qed.
Lemma bind_reject (r : result bool) : (do b <- r; reject b) = Ok tt <-> r = Ok false.
Proof. destruct r as [[]|e]; cbn [bind]; split; intros H; try reflexivity; discriminate H. Qed.
Lemma pow2_pos e : (0 < Qpower 2 e)%Q.
Proof. apply Qpower_0_lt. reflexivity. Qed.
Lemma leb_zero f : f64_leb f f64_zero = false <-> passes_zero f.
Proof.
  unfold passes_zero, above_zero, f64_leb, SFleb, f64_zero. destruct f as [s|s| |s m e]; cbn.
  - destruct s; split; try discriminate; intros [[H|(q & [= <-] & Hq)]|H]; try discriminate H; apply Qlt_irrefl in Hq; destruct Hq.
  - destruct s; split; try discriminate; try (intros _; left; left; reflexivity); try reflexivity. intros [[H|(q & H & _)]|H]; discriminate H.
  - split; [intros _; right; reflexivity|reflexivity].
  - assert (P := pow2_pos e). destruct s; split; try discriminate; try reflexivity.
    + intros [[H|(q & [= <-] & Hq)]|H]; try discriminate H. exfalso. assert (N : (inject_Z (Z.neg m) < 0)%Q) by reflexivity. nra.
    + intros _. left. right. eexists. split; [reflexivity|]. assert (N : (0 < inject_Z (Z.pos m))%Q) by reflexivity. nra.
Qed.
Lemma sigma_float_reads o v f : sigma_float o v = Ok f <-> sigma_reads o v f.
Proof.
  unfold sigma_float, sigma_reads. destruct (py_bool v).
  - split; [intros H; left; split; [reflexivity|exact H]|intros [[_ H]|[H _]]; [exact H|discriminate H]].
  - cbn [py_float]. split; [intros [= <-]; right; split; reflexivity|intros [[H _]|[_ ->]]; [discriminate H|reflexivity]].
Qed.
Lemma bad_int_ok o v : bad_int o v = Ok false <-> positive_int o v.
Proof.
  unfold bad_int, positive_int. destruct v; try (match goal with |- (do z <- ?r; _) = _ <-> _ => destruct r as [z'|e'] eqn:E end; cbn [bind];
    (split; [intros [= H]; exists z'; split; [reflexivity|lia] || discriminate H|intros (z0 & [= <-] & Hz); f_equal; lia] || (split; [discriminate|intros (z0 & H & _); discriminate H]))).
  - split; [discriminate|]. intros (z & H & _). discriminate H.
Qed.
Lemma bad_float_ok o v : bad_float o v = Ok false <-> positive_float o v.
Proof.
  unfold bad_float, positive_float. assert (N : v = PNone \/ bad_float o v = do f <- py_float o v; Ok (f64_leb f f64_zero)) by (destruct v; [left; reflexivity|right; reflexivity..]).
  destruct N as [->|N]; [split; [discriminate|intros (f & H & _); discriminate H]|]. unfold bad_float in N. rewrite N.
  destruct (py_float o v) as [f|e]; cbn [bind]; [|split; [discriminate|intros (f & H & _); discriminate H]].
  split; [intros [= H]; exists f; split; [reflexivity|apply leb_zero; exact H]|intros (f' & [= <-] & Hf); f_equal; apply leb_zero; exact Hf].
Qed.
Lemma bad_optional_ok o v : bad_optional o v = Ok false <-> v = PNone \/ positive_int o v.
Proof.
  unfold bad_optional. assert (N : v = PNone \/ v <> PNone /\ bad_optional o v = bad_int o v) by (destruct v; [left; reflexivity|right; split; [discriminate|reflexivity]..]).
  destruct N as [->|[NN N]]; [split; [intros _; left; reflexivity|reflexivity]|]. unfold bad_optional in N. rewrite N, bad_int_ok. split; [intros H; right; exact H|intros [H|H]; [contradiction|exact H]].
Qed.
Lemma weights_ok o metric w : weights_validate o metric w = Ok tt <-> valid_weights o metric w.
Proof.
  unfold weights_validate, valid_weights. destruct (one_of (ws_kind w) ["binary"; "heat"; "cosine"]) eqn:K; cbn [negb].
  - apply one_of_In in K. destruct K as [K|[K|[K|[]]]]; rewrite <- K; cbn [String.eqb Ascii.eqb Bool.eqb andb bind].
    + split; [intros _; left; reflexivity|reflexivity].
    + assert (G : (do _ <- (do s <- sigma_float o (ws_sigma w); (if f64_leb s f64_zero then Err GraphValidationError else Ok tt)); Ok tt) = Ok tt <-> exists s, sigma_reads o (ws_sigma w) s /\ passes_zero s).
      { destruct (sigma_float o (ws_sigma w)) as [s|e] eqn:S1; cbn [bind].
        - destruct (f64_leb s f64_zero) eqn:L; cbn [bind].
          + split; [discriminate|]. intros (s' & H1 & H2). apply sigma_float_reads in H1. rewrite S1 in H1. injection H1 as <-. apply leb_zero in H2. congruence.
          + split; [intros _; exists s; split; [apply sigma_float_reads; exact S1|apply leb_zero; exact L]|reflexivity].
        - split; [discriminate|]. intros (s' & H1 & _). apply sigma_float_reads in H1. rewrite S1 in H1. discriminate H1. }
      rewrite G. split; [intros H; right; left; split; [reflexivity|exact H]|intros [H|[[_ H]|[H _]]]; [discriminate H|exact H|discriminate H]].
    + destruct (String.eqb_spec metric "cosine") as [->|N]; cbn [negb].
      * split; [intros _; right; right; split; reflexivity|reflexivity].
      * split; [discriminate|]. intros [H|[[H _]|[_ H]]]; [discriminate H|discriminate H|contradiction].
  - split; [discriminate|]. intros H. assert (K' : one_of (ws_kind w) ["binary"; "heat"; "cosine"] = true); [|congruence]. apply one_of_In. destruct H as [->|[[-> _]|[-> _]]]; cbn; auto.
Qed.
Lemma negb_one_of s l : negb (one_of s l) = false <-> In s l.
Proof. rewrite negb_false_iff. apply one_of_In. Qed.
Lemma scheme_ok o s : scheme_validate o s = Ok tt <->
  (bs_scheme s = "knn" /\ positive_int o (bs_k s)) \/ (bs_scheme s = "epsilon" /\ positive_float o (bs_radius s)) \/
  (bs_scheme s = "anchor" /\ positive_int o (bs_k s) /\ 0 < bs_anchors_k s /\ (bs_n_anchors s = PNone \/ positive_int o (bs_n_anchors s)) /\
   0 < bs_candidate_limit s /\ In (bs_anchors_method s) ["random"; "kmeans"]).
Proof.
  unfold scheme_validate. destruct (String.eqb_spec (bs_scheme s) "knn") as [E1|N1].
  - rewrite bind_reject, bad_int_ok. split; [intros H; left; split; assumption|]. rewrite E1. intros [[_ H]|[[H _]|[H _]]]; [exact H|discriminate H|discriminate H].
  - destruct (String.eqb_spec (bs_scheme s) "epsilon") as [E2|N2].
    + rewrite bind_reject, bad_float_ok. split; [intros H; right; left; split; assumption|]. rewrite E2. intros [[H _]|[[_ H]|[H _]]]; [discriminate H|exact H|discriminate H].
    + destruct (String.eqb_spec (bs_scheme s) "anchor") as [E3|N3].
      * assert (G : forall (r : result bool) (k : result unit), (do b <- r; do _ <- reject b; k) = Ok tt <-> r = Ok false /\ k = Ok tt).
        { intros [[]|e] k; cbn [bind reject]; split; intros H; try discriminate H; try (destruct H as [H _]; discriminate H); [split; [reflexivity|exact H]|apply H]. }
        rewrite G, bind_unit, G, bind_unit, bad_int_ok, bad_optional_ok, !reject_ok, negb_one_of, !Z.leb_gt.
        split; [intros H; right; right; split; [exact E3|exact H]|]. rewrite E3. intros [[H _]|[[H _]|[_ H]]]; [discriminate H|discriminate H|exact H].
      * split; [discriminate|]. intros [[H _]|[[H _]|[H _]]]; contradiction.
Qed.
Lemma builder_ok o s : builder_validate o s = Ok tt <-> valid_builder o s.
Proof.
  unfold builder_validate, valid_builder, valid_scheme. rewrite !bind_unit, !reject_ok, !negb_one_of, !Z.leb_gt, weights_ok, scheme_ok.
  assert (B : (String.eqb (bs_backend s) "faiss" && String.eqb (bs_scheme s) "epsilon")%bool = false <-> (bs_scheme s = "epsilon" -> bs_backend s <> "faiss")).
  { destruct (String.eqb_spec (bs_backend s) "faiss") as [E|E], (String.eqb_spec (bs_scheme s) "epsilon") as [F|F]; cbn [andb]; split; intros H; try reflexivity; try discriminate H; try (intros; assumption); try (intros ?; contradiction). exfalso. exact (H F E). }
  rewrite B. intuition congruence.
Qed.
Lemma featurizer_ok s : featurizer_validate s = Ok tt <-> valid_featurizer s.
Proof.
  unfold featurizer_validate, valid_featurizer, unit_float. rewrite !bind_unit, !reject_ok, !Z.leb_gt, Z.ltb_ge, !negb_one_of, !leb_zero, negb_false_iff, negb_false_iff, andb_true_iff.
  change f_1_0 with f64_one.
  assert (V : forallb known_view (fs_views s) = true <-> forall v, In v (fs_views s) -> In v [PStr "attr"; PStr "diffusion"; PStr "struct"]).
  { rewrite forallb_forall. split; intros H v Hv; specialize (H v Hv).
    - destruct v; try discriminate H. apply one_of_In in H. destruct H as [<-|[<-|[<-|[]]]]; cbn; auto.
    - destruct H as [<-|[<-|[<-|[]]]]; reflexivity. }
  rewrite V. assert (E : match fs_views s with [] => true | _ => false end = false <-> fs_views s <> []) by (destruct (fs_views s); split; intros H; try reflexivity; try discriminate; contradiction).
  rewrite E. reflexivity.
Qed.
Lemma weights_round o w : weights_from o (weights_dict w) = w.
Proof. destruct w as [k s]. unfold weights_from, weights_dict, get, get_or, lookup. cbn. destruct s; reflexivity. Qed.
