(* C67, C68: resource limits and seed sweeps of the benchmark runner. *)
From Coq Require Import List ZArith Lia Bool String.
From Verif Require Import Prelude PyValue DecString HpoModel LimitsModel LimitsSpec LimitsProofs.
Import ListNotations.
Local Open Scope string_scope.
Local Open Scope Z_scope.
Local Open Scope list_scope.

Definition ex_o : Oracle := {| parse_int := fun _ => Some 0; parse_float := fun _ => None; show := fun v => match v with PInt z => dec z | _ => "?" end |}.
Definition ex_cfg : LimitsConfig :=
  {| lc_profile := Some "h100"; lc_preprocess_batch := Some 16; lc_method_batch := None; lc_method_sup_batch := None;
     lc_graph_chunk := None; lc_train_samples := Some 100; lc_test_samples := None |}.
Definition ex_raw : pydict :=
  [("run", PDict [("name", PStr "r"); ("seed", PInt 1); ("seeds", PList [PInt 1; PInt 2])]);
   ("dataset", PDict [("id", PStr "toy")]);
   ("preprocess", PDict [("seed", PInt 9); ("plan", PDict [("steps", PList
      [PDict [("id", PStr "embed"); ("params", PDict [("batch_size", PInt 64); ("dim", PInt 3)])];
       PDict [("id", PStr "norm")]])])]);
   ("method", PDict [("params", PDict [("batch_size", PInt 1000); ("sup_batch_size", PInt 8)])]);
   ("graph", PDict [("spec", PDict [("k", PInt 5)])])].
Definition ex_limited : pydict :=
  [("run", PDict [("name", PStr "r"); ("seed", PInt 1); ("seeds", PList [PInt 1; PInt 2])]);
   ("dataset", PDict [("id", PStr "toy"); ("options", PDict [("max_train_samples", PInt 100)])]);
   ("preprocess", PDict [("seed", PInt 9); ("plan", PDict [("steps", PList
      [PDict [("id", PStr "embed"); ("params", PDict [("batch_size", PInt 16); ("dim", PInt 3)])];
       PDict [("id", PStr "norm")]])])]);
   ("method", PDict [("params", PDict [("batch_size", PInt 512); ("sup_batch_size", PInt 8)])]);
   ("graph", PDict [("spec", PDict [("k", PInt 5); ("chunk_size", PInt 1024)])])].
Definition ex_l : ResolvedLimits :=
  {| rl_profile := Some "h100"; rl_preprocess_batch := Some 16; rl_method_batch := Some 512; rl_method_sup_batch := Some 256;
     rl_graph_chunk := Some 1024; rl_train_samples := Some 100; rl_test_samples := None |}.
Example ex_run : exists ch, apply_limits ex_o (fun s => s) None ex_raw (Some ex_cfg) true = Ok (ex_limited, ch, Some ex_l) /\
  map snd ch = ["dataset.options.max_train_samples: set to 100"; "preprocess.plan.steps[embed].params.batch_size: 64 -> 16";
                "method.params.batch_size: 1000 -> 512"; "graph.spec.chunk_size: set to 1024"].
Proof. eexists. split; vm_compute; reflexivity. Qed.

(* ----- C67: limits ----- *)

(* whatever integer a limited setting stands for afterwards is within the limit *)
Theorem C67_within_the_limit o lower detected raw cfg strict raw' ch l place c settable v z :
  apply_limits o lower detected raw cfg strict = Ok (raw', ch, Some l) ->
  governed l place c settable -> value_at (PDict raw') place = Some v -> stands_for o v z -> z <= c.
Proof. intros H g E. pose proof (limits_obeyed _ _ _ _ _ _ _ _ _ _ _ _ H g) as X. rewrite E in X. exact (obeys_at_most o c settable _ v z X). Qed.
Print Assumptions C67_within_the_limit.
Example C67_within_satisfiable : governed ex_l [K "preprocess"; K "plan"; K "steps"; I 0; K "params"; K "batch_size"] 16 false /\
  value_at (PDict ex_limited) [K "preprocess"; K "plan"; K "steps"; I 0; K "params"; K "batch_size"] = Some (PInt 16) /\
  stands_for ex_o (PInt 16) 16.
Proof. split; [apply (g_step ex_l 16 0); reflexivity|]. split; [reflexivity|]. repeat split; try discriminate; intros; discriminate. Qed.

(* a limited setting is lowered to the limit when it was above it, and kept otherwise *)
Theorem C67_only_lowered o lower detected raw cfg strict raw' ch l place c settable :
  apply_limits o lower detected raw cfg strict = Ok (raw', ch, Some l) ->
  governed l place c settable ->
  obeys o c settable (value_at (PDict raw) place) (value_at (PDict raw') place).
Proof. apply limits_obeyed. Qed.
Print Assumptions C67_only_lowered.

(* the two sample limits and the graph chunk limit are also written down when the setting is absent *)
Theorem C67_absent_settings_are_set o lower detected raw cfg strict raw' ch l place c v :
  apply_limits o lower detected raw cfg strict = Ok (raw', ch, Some l) ->
  governed l place c true ->
  (exists k, place = options_place ++ [K k] /\ is_mapping (value_at (PDict raw) [K "dataset"])) \/
  (place = [K "graph"; K "spec"; K "chunk_size"] /\ is_mapping (value_at (PDict raw) [K "graph"; K "spec"])) ->
  value_at (PDict raw) place = None -> v = value_at (PDict raw') place -> v = Some (PInt c).
Proof.
  intros H g M N ->. pose proof (limits_obeyed _ _ _ _ _ _ _ _ _ _ _ _ H g) as X. rewrite N in X.
  assert (S : value_at (PDict raw') place <> None).
  { pose proof (apply_inv _ _ _ _ _ _ _ _ _ H) as (_ & E). replace raw' with (fst (limit_all o l raw)) by (rewrite E; reflexivity).
    destruct M as [(k & -> & M)|(-> & M)].
    - inversion g; subst k; apply (limits_set_samples o l raw _ c); auto.
    - inversion g; subst. apply (limits_set_chunk o l raw c); auto. }
  destruct X as [((-> & _) & _)|(X & _)]; [reflexivity|]. destruct (value_at (PDict raw') place) as [[]|]; cbn in X; contradiction.
Qed.
Print Assumptions C67_absent_settings_are_set.
Example C67_absent_satisfiable : governed ex_l (options_place ++ [K "max_train_samples"]) 100 true /\
  is_mapping (value_at (PDict ex_raw) [K "dataset"]) /\ value_at (PDict ex_raw) (options_place ++ [K "max_train_samples"]) = None.
Proof. split; [apply (g_train ex_l 100); reflexivity|]. split; [eexists; reflexivity|reflexivity]. Qed.

(* every other place of the configuration keeps what it held *)
Theorem C67_everything_else_is_kept o lower detected raw cfg strict raw' ch l place :
  apply_limits o lower detected raw cfg strict = Ok (raw', ch, Some l) ->
  (forall c settable, ~ governed l place c settable) ->
  (forall r, place = options_place ++ r -> is_mapping (value_at (PDict raw) options_place)) ->
  same (value_at (PDict raw) place) (value_at (PDict raw') place).
Proof. apply limits_frame. Qed.
Print Assumptions C67_everything_else_is_kept.
Example C67_kept_satisfiable : (forall c s, ~ governed ex_l [K "preprocess"; K "plan"; K "steps"; I 0; K "params"; K "dim"] c s) /\
  (forall r, [K "preprocess"; K "plan"; K "steps"; I 0; K "params"; K "dim"] = options_place ++ r -> is_mapping (value_at (PDict ex_raw) options_place)) /\
  value_at (PDict ex_raw) [K "preprocess"; K "plan"; K "steps"; I 0; K "params"; K "dim"] = Some (PInt 3).
Proof. split; [intros c s g; inversion g|]. split; [intros r X; discriminate|reflexivity]. Qed.

(* dataset.options, when it is absent, null or anything but a mapping, becomes a mapping that holds the limits only *)
Theorem C67_options_become_a_mapping o lower detected raw cfg strict raw' ch l :
  apply_limits o lower detected raw cfg strict = Ok (raw', ch, Some l) ->
  is_mapping (value_at (PDict raw) [K "dataset"]) ->
  is_mapping (value_at (PDict raw') options_place) /\
  (~ is_mapping (value_at (PDict raw) options_place) ->
   forall k r, (forall c s, ~ governed l (options_place ++ K k :: r) c s) ->
   value_at (PDict raw') (options_place ++ K k :: r) = None).
Proof. apply limits_options. Qed.
Print Assumptions C67_options_become_a_mapping.
Example C67_options_satisfiable : is_mapping (value_at (PDict ex_raw) [K "dataset"]) /\ ~ is_mapping (value_at (PDict ex_raw) options_place).
Proof. split; [eexists; reflexivity|]. intros (d & E). discriminate. Qed.

(* the report lists exactly the settings that changed, each once, with the old and the new value *)
Theorem C67_report_is_exact o lower detected raw cfg strict raw' ch l :
  apply_limits o lower detected raw cfg strict = Ok (raw', ch, Some l) ->
  NoDup (map fst ch) /\
  (forall place, In place (map fst ch) <->
     exists c settable, governed l place c settable /\
       limited o c (value_at (PDict raw) place) (value_at (PDict raw') place)) /\
  (forall place text, In (place, text) ch ->
     exists c, value_at (PDict raw') place = Some (PInt c) /\ message o place (value_at (PDict raw) place) c text).
Proof. apply changes_exact. Qed.
Print Assumptions C67_report_is_exact.

(* applying the same limits again changes nothing and reports nothing *)
Theorem C67_idempotent o lower detected raw cfg strict raw' ch l :
  apply_limits o lower detected raw cfg strict = Ok (raw', ch, Some l) ->
  apply_limits o lower detected raw' cfg strict = Ok (raw', [], Some l).
Proof. apply limits_idempotent. Qed.
Print Assumptions C67_idempotent.

(* the limits in force: the configuration's own, else the profile's; "auto" is refused in benchmark mode *)
Theorem C67_limits_in_force lower detected cfg strict :
  ~ (strict = true /\ exists p, lc_profile cfg = Some p /\ p <> "" /\ lower p = "auto") ->
  exists l, profile_in_force lower detected (lc_profile cfg) (rl_profile l) /\
   (let '(a, b, c, d) := profile_limits (rl_profile l) in
    in_force (lc_preprocess_batch cfg) a (rl_preprocess_batch l) /\ in_force (lc_method_batch cfg) b (rl_method_batch l) /\
    in_force (lc_method_sup_batch cfg) c (rl_method_sup_batch l) /\ in_force (lc_graph_chunk cfg) d (rl_graph_chunk l) /\
    rl_train_samples l = lc_train_samples cfg /\ rl_test_samples l = lc_test_samples cfg) /\
   ((no_limit l /\ resolve_limits lower detected (Some cfg) strict = Ok None) \/
    (~ no_limit l /\ resolve_limits lower detected (Some cfg) strict = Ok (Some l))).
Proof. apply resolve_total. Qed.
Print Assumptions C67_limits_in_force.
Example C67_in_force_satisfiable : ~ (true = true /\ exists p, lc_profile ex_cfg = Some p /\ p <> "" /\ p = "auto") /\
  resolve_limits (fun s => s) None (Some ex_cfg) true = Ok (Some ex_l).
Proof. split; [intros (_ & p & E & _ & ->); discriminate|reflexivity]. Qed.

Theorem C67_auto_refused_in_benchmark_mode o lower detected raw cfg p :
  lc_profile cfg = Some p -> p <> "" -> lower p = "auto" ->
  apply_limits o lower detected raw (Some cfg) true = Err BenchError.
Proof. intros E N L. unfold apply_limits. now rewrite (resolve_strict lower detected cfg p E N L). Qed.
Print Assumptions C67_auto_refused_in_benchmark_mode.
Example C67_auto_satisfiable : "auto" <> "" /\ (fun s : string => s) "auto" = "auto".
Proof. split; [discriminate|reflexivity]. Qed.

Theorem C67_no_limits_no_change o lower detected raw cfg strict :
  resolve_limits lower detected cfg strict = Ok None ->
  apply_limits o lower detected raw cfg strict = Ok (raw, [], None).
Proof. intros E. unfold apply_limits. now rewrite E. Qed.
Print Assumptions C67_no_limits_no_change.
Example C67_no_limits_satisfiable : resolve_limits (fun s => s) None None true = Ok None.
Proof. reflexivity. Qed.

(* a sample limit does not bound the number of samples when the configuration says null, which means no bound *)
Definition ex_null : pydict := [("dataset", PDict [("options", PDict [("max_train_samples", PNone)])])].
Theorem C67_null_is_not_limited_refuted :
  ~ (forall o lower detected raw cfg strict raw' ch l c,
       apply_limits o lower detected raw cfg strict = Ok (raw', ch, Some l) -> rl_train_samples l = Some c ->
       is_mapping (value_at (PDict raw) [K "dataset"]) ->
       exists z, value_at (PDict raw') (options_place ++ [K "max_train_samples"]) = Some (PInt z) /\ z <= c).
Proof.
  intros H. destruct (H ex_o (fun s => s) None ex_null (Some ex_cfg) true ex_null [] ex_l 100) as (z & E & _); try reflexivity; [eexists; reflexivity|discriminate].
Qed.
Print Assumptions C67_null_is_not_limited_refuted.
(* a batch size that is left to its default is not limited *)
Definition ex_default : pydict := [("method", PDict [("params", PDict [])])].
Theorem C67_default_batch_size_is_not_limited_refuted :
  ~ (forall o lower detected raw cfg strict raw' ch l c,
       apply_limits o lower detected raw cfg strict = Ok (raw', ch, Some l) -> rl_method_batch l = Some c ->
       is_mapping (value_at (PDict raw) [K "method"; K "params"]) ->
       exists z, value_at (PDict raw') [K "method"; K "params"; K "batch_size"] = Some (PInt z) /\ z <= c).
Proof.
  intros H. destruct (H ex_o (fun s => s) None ex_default (Some ex_cfg) true ex_default [] ex_l 512) as (z & E & _); try reflexivity; [eexists; reflexivity|discriminate].
Qed.
Print Assumptions C67_default_batch_size_is_not_limited_refuted.

(* ----- C68: seed sweeps ----- *)

(* every part of the run that has a seed gets the sweep's seed, and the list of seeds is gone *)
Theorem C68_seed_is_everywhere raw seed name :
  let raw' := apply_global_seed raw seed name in
  value_at (PDict raw') [K "run"; K "seed"] = Some (PInt seed) /\
  value_at (PDict raw') [K "run"; K "seeds"] = None /\
  (forall n, name = Some n -> value_at (PDict raw') [K "run"; K "name"] = Some (PStr n)) /\
  (forall s, In s ["sampling"; "preprocess"; "views"; "graph"; "augmentation"; "search"] ->
     is_mapping (value_at (PDict raw) [K s]) -> value_at (PDict raw') [K s; K "seed"] = Some (PInt seed)).
Proof. apply sweep_sets. Qed.
Print Assumptions C68_seed_is_everywhere.

(* nothing else changes *)
Theorem C68_everything_else_is_kept raw seed name place :
  (forall q r, sweep_place raw q -> place = q ++ r -> q = [K "run"; K "name"] /\ name = None) ->
  (forall r, place = K "run" :: r -> is_mapping (value_at (PDict raw) [K "run"])) ->
  same (value_at (PDict raw) place) (value_at (PDict (apply_global_seed raw seed name)) place).
Proof. apply sweep_frame. Qed.
Print Assumptions C68_everything_else_is_kept.
Example C68_kept_satisfiable :
  (forall q r, sweep_place ex_raw q -> [K "method"; K "params"; K "batch_size"] = q ++ r -> q = [K "run"; K "name"] /\ Some "n" = None) /\
  apply_global_seed ex_raw 7 (Some (sweep_run_name "r" 7)) =
  [("run", PDict [("name", PStr "r-seed7"); ("seed", PInt 7)]);
   ("dataset", PDict [("id", PStr "toy")]);
   ("preprocess", PDict [("seed", PInt 7); ("plan", PDict [("steps", PList
      [PDict [("id", PStr "embed"); ("params", PDict [("batch_size", PInt 64); ("dim", PInt 3)])];
       PDict [("id", PStr "norm")]])])]);
   ("method", PDict [("params", PDict [("batch_size", PInt 1000); ("sup_batch_size", PInt 8)])]);
   ("graph", PDict [("spec", PDict [("k", PInt 5)]); ("seed", PInt 7)])].
Proof.
  split; [|vm_compute; reflexivity]. intros q r [->|[->|[->|(s & HI & _ & ->)]]] E; try discriminate.
Qed.

(* the runs of a sweep have different names, so none overwrites another *)
Theorem C68_names_are_distinct base seed1 seed2 :
  seed1 <> seed2 -> sweep_run_name base seed1 <> sweep_run_name base seed2.
Proof. intros N E. apply N. exact (sweep_name_inj base seed1 seed2 E). Qed.
Print Assumptions C68_names_are_distinct.

(* two runs of a sweep differ in their seeds and names only *)
Theorem C68_runs_differ_only_in_seed raw seed1 seed2 name1 name2 place :
  (forall q r, sweep_place raw q -> place = q ++ r -> False) ->
  (forall r, place = K "run" :: r -> is_mapping (value_at (PDict raw) [K "run"])) ->
  same (value_at (PDict (apply_global_seed raw seed1 name1)) place) (value_at (PDict (apply_global_seed raw seed2 name2)) place).
Proof.
  intros H HR. pose proof (sweep_frame raw seed1 name1 place (fun q r S E => False_ind _ (H q r S E)) HR) as A.
  pose proof (sweep_frame raw seed2 name2 place (fun q r S E => False_ind _ (H q r S E)) HR) as B.
  eapply same_trans; [|exact B]. revert A. clear. destruct (value_at (PDict raw) place) as [[]|], (value_at (PDict (apply_global_seed raw seed1 name1)) place) as [[]|];
    cbn; auto; intros X; try discriminate; try contradiction; congruence.
Qed.
Print Assumptions C68_runs_differ_only_in_seed.
