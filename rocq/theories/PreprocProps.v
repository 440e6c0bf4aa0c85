(* Theorems about the preprocessing pipeline: step cache keys (C28), purging (C29), plan resolution (C55). *)
From Coq Require Import String.
From Verif Require Import Prelude PreprocModel PreprocSpec PreprocProofs PreprocCacheProofs.
Local Open Scope Z_scope.
Local Open Scope list_scope.

(* ---- C28.  Calls that share a cache return what they would have returned without it, whatever calls (including
   failing ones) came before, when every step reads and writes only what it declares and draws no random number
   while transforming, the dataset fingerprint identifies the dataset, different payloads get different keys, and
   what is saved comes back unchanged.  Missing for the full claim: steps that break their declaration, and the
   fingerprint of a dataset without one (both refuted below). *)
Theorem C28_shared_cache_is_transparent_partial {V Pm R S DFp} (sem : semantics V Pm R S) (data_of : DFp -> dataset V)
    (key_eqb : key Pm DFp -> key Pm DFp -> bool) (saved : dict V -> dict V) (calls : list (request Pm DFp)) :
  (forall a b, key_eqb a b = true <-> a = b) ->
  saves_faithfully saved -> (forall o, NoDup (map fst o) -> NoDup (map fst (saved o))) ->
  (forall q s, In q calls -> In s (q_steps q) -> settled sem s) ->
  session sem key_eqb saved data_of [] calls = map (uncached sem data_of) calls.
Proof. intros H1 H2 H3 H4. exact (session_from_empty sem data_of key_eqb saved H1 H2 H3 calls H4). Qed.

(* ---- C29.  Whatever a purged run returns is what the run without purging returns. *)
Theorem C29_purged_result_is_the_same_partial {V Pm R S DFp} (sem : semantics V Pm R S) (dfp : DFp) (ds : dataset V) steps out seed fi r :
  good_steps sem steps -> preprocess sem dfp ds steps out seed fi true = Ok r -> preprocess sem dfp ds steps out seed fi false = Ok r.
Proof. apply purge_same. Qed.
(* When it returns at all: exactly when raw.X and raw.y happen to be kept; otherwise it fails with a KeyError. *)
Theorem C29_purged_run_succeeds_iff {V Pm R S DFp} (sem : semantics V Pm R S) (dfp : DFp) (ds : dataset V) steps out seed fi r :
  good_steps sem steps -> steps <> [] -> preprocess sem dfp ds steps out seed fi false = Ok r ->
  (preprocess sem dfp ds steps out seed fi true = Ok r /\
     (out = "raw.X"%string \/ (~ In out (map fst (initial (d_train ds))) /\ ~ In out (produced steps))) /\
     (out = "raw.y"%string \/ ~ In "labels.y"%string (produced steps)))
  \/ (preprocess sem dfp ds steps out seed fi true = Err KeyError /\
     ~ ((out = "raw.X"%string \/ (~ In out (map fst (initial (d_train ds))) /\ ~ In out (produced steps))) /\
        (out = "raw.y"%string \/ ~ In "labels.y"%string (produced steps)))).
Proof.
  intros Hg Hne Hr. assert (H := purge_ok_iff sem dfp ds steps out seed fi r Hg Hr). destruct steps; [congruence|exact H].
Qed.
(* so every useful plan - one that produces the artifact it returns - fails when purging *)
Theorem C29_purging_a_produced_output_refuted {V Pm R S DFp} (sem : semantics V Pm R S) (dfp : DFp) (ds : dataset V) steps out seed fi r :
  good_steps sem steps -> out <> "raw.X"%string -> In out (produced steps) ->
  preprocess sem dfp ds steps out seed fi false = Ok r -> preprocess sem dfp ds steps out seed fi true = Err KeyError.
Proof.
  intros Hg Ho Hp Hr. assert (Hne : steps <> []) by (intros ->; destruct Hp).
  destruct (C29_purged_run_succeeds_iff sem dfp ds steps out seed fi r Hg Hne Hr) as [(_ & [?|[_ ?]] & _)|[E _]]; [contradiction|contradiction|exact E].
Qed.

(* ---- C55.  A step of the plan is run iff it is enabled, meant for this modality, and each field it requires is
   in the dataset or declared by an earlier step that is run; the order is the plan's.  Resolution fails iff some
   enabled step is unknown. *)
Theorem C55_resolved_plan {Pm} registry modality fields (plan : list (config Pm)) steps :
  resolve registry modality 0 fields plan = Ok steps ->
  StronglySorted Z.lt (map r_index steps) /\
  (forall n c, nth_error plan n = Some c ->
     ((exists s, In s steps /\ r_index s = Z.of_nat n) <->
      (c_enabled c = true /\ exists sp, registry (c_id c) = Some sp /\ modality_ok modality c sp /\
         forall k, In k (c_requires c) -> In k fields \/ exists s, In s steps /\ r_index s < Z.of_nat n /\ In k (sp_produces (r_spec s))))) /\
  (forall s, In s steps -> exists n c, nth_error plan n = Some c /\ r_index s = Z.of_nat n /\ r_id s = c_id c /\ r_params s = c_params c /\ registry (c_id c) = Some (r_spec s)).
Proof.
  intros H. split; [eapply resolve_sorted; eauto|]. exact (resolve_kept registry modality plan 0 fields steps H).
Qed.
Theorem C55_resolution_fails_iff_unknown {Pm} registry modality fields (plan : list (config Pm)) :
  (exists e, resolve registry modality 0 fields plan = Err e) <-> (exists c, In c plan /\ c_enabled c = true /\ registry (c_id c) = None).
Proof.
  split.
  - intros (e & H). apply resolve_err in H as (_ & H). exact H.
  - intros (c & H1 & H2 & H3). exists PreprocessError. eapply resolve_unknown; eauto.
Qed.

(* ---------------------------------------------------------------- examples *)
(* values are integers; a few of the builtin steps, reduced to what they read and write *)
Definition feats (d : dict Z) : result Z := match get d "features.X" with Some x => Ok x | None => require d "raw.X" end.
Definition demo : semantics Z Z Z Z := {|
  fresh := fun _ p => Ok p;
  fit := fun _ _ o _ _ r => Ok (o, r);
  transform := fun id p o d r =>
    (* core/copy_raw.py *)
    if String.eqb id "core.copy_raw" then do x <- require d "raw.X"; Ok ([("features.X"%string, x)], r)
    (* core/cast_dtype.py *)
    else if String.eqb id "core.cast_dtype" then do x <- require d "features.X"; Ok ([("features.X"%string, x * p)], r)
    (* core/ensure_2d.py:18: store.get("features.X", store.require("raw.X")) *)
    else if String.eqb id "core.ensure_2d" then do _ <- require d "raw.X"; do x <- feats d; Ok ([("features.X"%string, x)], r)
    (* tabular/impute.py: get_X, features.X or else raw.X *)
    else if String.eqb id "tabular.impute" then do x <- feats d; Ok ([("features.X"%string, x + p)], r)
    (* labels/encode.py *)
    else if String.eqb id "labels.encode" then do y <- require d "raw.y"; Ok ([("labels.y"%string, y); ("labels.classes"%string, y)], r)
    (* graph/edge_sparsify.py: draws in transform *)
    else if String.eqb id "graph.edge_sparsify" then do e <- require d "graph.edge_index"; Ok ([("graph.edge_index"%string, e + r)], r + 1)
    else Err KeyError;
  rng_of := fun z => z;
  derive := fun seed _ i => seed + i
|}.
Definition one (cons prods : list string) : spec := {| sp_fittable := false; sp_modalities := []; sp_consumes := cons; sp_produces := prods |}.
Definition st (id : string) (p i : Z) (sp : spec) : step Z := {| r_id := id; r_params := p; r_index := i; r_spec := sp |}.
Definition copy_raw := st "core.copy_raw" 0 0 (one ["raw.X"] ["features.X"])%string.
Definition cast (p : Z) := st "core.cast_dtype" p 1 (one ["features.X"] ["features.X"])%string.
Definition impute (p : Z) := st "tabular.impute" p 0 (one ["features.X"] ["features.X"])%string.
Definition ensure_2d := st "core.ensure_2d" 0 1 (one ["raw.X"] ["features.X"])%string.
Definition encode := st "labels.encode" 0 0 (one ["raw.y"] ["labels.y"; "labels.classes"])%string.
Definition sparsify := st "graph.edge_sparsify" 0 0 (one ["graph.edge_index"] ["graph.edge_index"])%string.
Definition sp (x y : Z) : split Z := {| s_X := x; s_y := y; s_edges := Some 7; s_masks := [] |}.
Definition ds (x : Z) : dataset Z := {| d_train := sp x 1; d_test := Some (sp (x + 100) 2) |}.
Fixpoint same_key (a b : key Z Z) : bool :=
  match a, b with
  | Raw d n, Raw d' n' => (d =? d') && String.eqb n n'
  | Step d i x p f s ft it ie, Step d' i' x' p' f' s' ft' it' ie' =>
      let same_list := fix go (l l' : list (string * key Z Z)) : bool :=
        match l, l' with
        | [], [] => true
        | e :: l, e' :: l' => String.eqb (fst e) (fst e') && same_key (snd e) (snd e') && go l l'
        | _, _ => false
        end in
      (d =? d') && String.eqb i i' && (x =? x') && (p =? p') && Bool.eqb f f' && (s =? s') &&
      (match ft, ft' with None, None => true | Some l, Some l' => if list_eq_dec Z.eq_dec l l' then true else false | _, _ => false end) &&
      same_list it it' && same_list ie ie'
  | _, _ => false
  end.
Fixpoint key_size (a : key Z Z) : nat :=
  match a with
  | Raw _ _ => 1%nat
  | Step _ _ _ _ _ _ _ it ie => Datatypes.S (list_sum (map (fun e => key_size (snd e)) it) + list_sum (map (fun e => key_size (snd e)) ie))
  end.
Lemma same_key_spec : forall n a, (key_size a <= n)%nat -> forall b, same_key a b = true <-> a = b.
Proof.
  induction n as [|n IH]; intros a Ha; [destruct a; cbn [key_size] in Ha; lia|]. destruct a as [d nm|d i x p f s ft it ie]; intros b.
  - destruct b as [d' nm'|]; cbn [same_key]; [|split; discriminate]. rewrite andb_true_iff, Z.eqb_eq, String.eqb_eq. split; [intros [-> ->]; reflexivity|intros [= -> ->]; auto].
  - destruct b as [|d' i' x' p' f' s' ft' it' ie']; cbn [same_key]; [split; discriminate|].
    assert (Hl : forall l l', (list_sum (map (fun e => key_size (snd e)) l) <= n)%nat ->
      ((fix go (l l' : list (string * key Z Z)) : bool := match l, l' with [], [] => true | e :: l, e' :: l' => String.eqb (fst e) (fst e') && same_key (snd e) (snd e') && go l l' | _, _ => false end) l l' = true <-> l = l')).
    { induction l as [|[k e] l IHl]; intros [|[k' e'] l'] Hl; try (split; [discriminate|discriminate]); [split; reflexivity|]. cbn [map list_sum fold_right fst snd] in *. rewrite !andb_true_iff, String.eqb_eq. fold (list_sum (map (fun e => key_size (snd e)) l)) in Hl.
      rewrite (IHl l') by lia. rewrite (IH e) by lia. split; [intros [[-> ->] ->]; reflexivity|intros [= -> -> ->]; auto]. }
    cbn [key_size] in Ha. rewrite !andb_true_iff, !Z.eqb_eq, String.eqb_eq, Bool.eqb_true_iff. rewrite (Hl it it') by lia. rewrite (Hl ie ie') by lia.
    assert (Hf : (match ft, ft' with None, None => true | Some l, Some l' => if list_eq_dec Z.eq_dec l l' then true else false | _, _ => false end = true) <-> ft = ft').
    { destruct ft as [l|], ft' as [l'|]; try (split; [discriminate|discriminate]); [|split; reflexivity]. destruct (list_eq_dec Z.eq_dec l l') as [->|]; split; try congruence; reflexivity. }
    rewrite Hf. split; [intros [[[[[[[[-> ->] ->] ->] ->] ->] ->] ->] ->]; reflexivity|intros [= -> -> -> -> -> -> -> -> ->]; repeat split].
Qed.

(* plans of the declared kind, and three calls on them *)
Lemma copy_raw_settled : settled demo copy_raw.
Proof.
  split; [|split].
  - intros a b H. assert (E := H "raw.X"%string (or_introl eq_refl)). split; [reflexivity|]. intros o r. cbn. unfold require. rewrite E. reflexivity.
  - intros o d r x r'. cbn. unfold require. destruct (get d "raw.X"); cbn; [|discriminate]. intros [= <- <-]. split; [repeat constructor; intros []|]. cbn. auto.
  - intros o d r r'. cbn. unfold require. destruct (get d "raw.X"); cbn; reflexivity.
Qed.
Lemma cast_settled p : settled demo (cast p).
Proof.
  split; [|split].
  - intros a b H. assert (E := H "features.X"%string (or_introl eq_refl)). split; [reflexivity|]. intros o r. cbn. unfold require. rewrite E. reflexivity.
  - intros o d r x r'. cbn. unfold require. destruct (get d "features.X"); cbn; [|discriminate]. intros [= <- <-]. split; [repeat constructor; intros []|]. cbn. auto.
  - intros o d r r'. cbn. unfold require. destruct (get d "features.X"); cbn; reflexivity.
Qed.
Definition call (d : Z) (steps : list (step Z)) : request Z Z := {| q_data := d; q_steps := steps; q_output := "features.X"%string; q_seed := 5; q_fit := None |}.
Example C28_three_calls :
  let calls := [call 1 [copy_raw; cast 2]; call 1 [copy_raw; cast 3]; call 1 [copy_raw; cast 2]; call 2 [cast 2]] in
  (forall q s, In q calls -> In s (q_steps q) -> settled demo s) /\
  map (fun r => match r with Ok (tr, Some te) => Ok (o_X tr, o_X te) | Ok (tr, None) => Ok (o_X tr, 0) | Err e => Err e end)
    (session demo same_key (fun o => o) ds [] calls) = [Ok (2, 202); Ok (3, 303); Ok (2, 202); Err KeyError].
Proof.
  split; [|vm_compute; reflexivity].
  intros q s Hq Hs. cbn [In] in Hq. destruct Hq as [<-|[<-|[<-|[<-|[]]]]]; cbn [q_steps call In] in Hs; destruct Hs as [<-|Hs]; try apply copy_raw_settled; try apply cast_settled; try (destruct Hs as [<-|[]]; apply cast_settled); destruct Hs.
Qed.
Example C28_keys_compared : (forall a b, same_key a b = true <-> a = b) /\ saves_faithfully (fun o : dict Z => o).
Proof. split; [intros a b; exact (same_key_spec _ a (le_n _) b)|intros o k v H; exact H]. Qed.

(* core.ensure_2d reads features.X but declares raw.X only: after a call with one imputation, a call with another
   imputation returns the first one's features. *)
Theorem C28_undeclared_read_refuted : exists calls,
  session demo same_key (fun o => o) ds [] calls <> map (uncached demo ds) calls /\
  (exists r1 r2, session demo same_key (fun o => o) ds [] calls = [Ok r1; Ok r2] /\ o_X (fst r1) = 11 /\ o_X (fst r2) = 11) /\
  (exists r1 r2, map (uncached demo ds) calls = [Ok r1; Ok r2] /\ o_X (fst r1) = 11 /\ o_X (fst r2) = 21).
Proof.
  exists [call 1 [impute 10; ensure_2d]; call 1 [impute 20; ensure_2d]]. split; [vm_compute; discriminate|].
  split; eexists; eexists; (split; [vm_compute; reflexivity|]); split; reflexivity.
Qed.
(* A dataset that has no fingerprint in its metadata is fingerprinted by its shape only (pipeline.py
   _dataset_fingerprint): two different datasets with the same key share entries. *)
Theorem C28_shape_fingerprint_refuted : exists steps c1 r1,
  cached_preprocess demo same_key (fun o => o) [] 0 (ds 1) steps "features.X" 5 None = (c1, Ok r1) /\
  (forall s, In s steps -> settled demo s) /\
  exists r2 r2', snd (cached_preprocess demo same_key (fun o => o) c1 0 (ds 50) steps "features.X" 5 None) = Ok r2 /\
     preprocess demo 0 (ds 50) steps "features.X" 5 None false = Ok r2' /\ o_X (fst r2) = 1 /\ o_X (fst r2') = 50.
Proof.
  exists [copy_raw]. eexists. eexists. split; [vm_compute; reflexivity|]. split; [intros s [<-|[]]; apply copy_raw_settled|].
  eexists. eexists. split; [vm_compute; reflexivity|]. split; [vm_compute; reflexivity|]. split; reflexivity.
Qed.
(* A step that draws while transforming: if the process stopped after saving the train entry, the next call's test
   output is another one, because the generator was not moved by the train split. *)
Theorem C28_interrupted_random_step_refuted : exists c full r1 r2,
  cached_preprocess demo same_key (fun o => o) [] 1 (ds 1) [sparsify] "raw.X" 5 None = (full, Ok r1) /\
  c = skipn 1 full /\ List.length full = 2%nat /\
  snd (cached_preprocess demo same_key (fun o => o) c 1 (ds 1) [sparsify] "raw.X" 5 None) = Ok r2 /\
  option_map o_edges (snd r1) = Some (Unweighted (Some 13)) /\ option_map o_edges (snd r2) = Some (Unweighted (Some 12)).
Proof.
  eexists. eexists. eexists. eexists. split; [vm_compute; reflexivity|]. split; [cbn; reflexivity|]. split; [reflexivity|]. split; [vm_compute; reflexivity|]. split; reflexivity.
Qed.

(* purging a plan that returns what it produces, and a step that reads raw.X without declaring it *)
Lemma demo_good : good_steps demo [copy_raw; cast 2].
Proof. intros s [<-|[<-|[]]]; [destruct copy_raw_settled as (H1 & H2 & _)|destruct (cast_settled 2) as (H1 & H2 & _)]; split; assumption. Qed.
Theorem C29_default_plan_refuted : good_steps demo [copy_raw; cast 2] /\
  (exists r, preprocess demo 1 (ds 1) [copy_raw; cast 2] "features.X" 5 None false = Ok r /\ o_X (fst r) = 2) /\
  preprocess demo 1 (ds 1) [copy_raw; cast 2] "features.X" 5 None true = Err KeyError.
Proof. split; [exact demo_good|]. split; [eexists; split; [vm_compute; reflexivity|reflexivity]|vm_compute; reflexivity]. Qed.
Example C29_purging_works_for_raw_output : exists r, good_steps demo [copy_raw; cast 2] /\
  preprocess demo 1 (ds 1) [copy_raw; cast 2] "raw.X" 5 None true = Ok r /\ o_X (fst r) = 1.
Proof. eexists. split; [exact demo_good|]. split; [vm_compute; reflexivity|reflexivity]. Qed.
Theorem C29_undeclared_read_refuted : 
  (exists s, run demo 1 5 None None (start 1 (ds 1)) [encode; impute 3] = Ok s) /\
  run demo 1 5 None (Some (keep_sets (final_keep [encode; impute 3] "features.X" ["raw.X"; "raw.y"]%string) [encode; impute 3])) (start 1 (ds 1)) [encode; impute 3] = Err KeyError.
Proof. split; [eexists; vm_compute; reflexivity|vm_compute; reflexivity]. Qed.

Definition demo_registry (id : string) : option spec :=
  if String.eqb id "core.copy_raw" then Some (one ["raw.X"] ["features.X"])%string
  else if String.eqb id "vision.resize" then Some {| sp_fittable := false; sp_modalities := ["vision"]; sp_consumes := ["raw.X"]; sp_produces := ["raw.X"] |}%string
  else if String.eqb id "core.cast_dtype" then Some (one ["features.X"] ["features.X"])%string else None.
Definition cfg (id : string) (req : list string) (en : bool) : config Z := {| c_id := id; c_params := 0; c_modalities := []; c_requires := req; c_enabled := en |}.
Example C55_some_plan : exists steps,
  resolve demo_registry "tabular" 0 ["raw.X"; "raw.y"]%string
    [cfg "core.cast_dtype" ["features.X"] true; cfg "vision.resize" [] true; cfg "core.copy_raw" ["raw.X"] true; cfg "unknown" [] false; cfg "core.cast_dtype" ["features.X"] true]%string = Ok steps /\
  map r_index steps = [2; 4].
Proof. eexists. split; [vm_compute; reflexivity|reflexivity]. Qed.

Print Assumptions C28_shared_cache_is_transparent_partial.
Print Assumptions C29_purged_result_is_the_same_partial.
Print Assumptions C29_purged_run_succeeds_iff.
Print Assumptions C29_purging_a_produced_output_refuted.
Print Assumptions C55_resolved_plan.
Print Assumptions C55_resolution_fails_iff_unknown.
Print Assumptions C28_undeclared_read_refuted.
Print Assumptions C28_shape_fingerprint_refuted.
Print Assumptions C28_interrupted_random_step_refuted.
Print Assumptions C29_default_plan_refuted.
Print Assumptions C29_undeclared_read_refuted.
