(* C151 and C152: experiment configurations and the start of a run. *)
From Coq Require Import String Ascii SpecFloat.
From Verif Require Import Prelude FloatModel PyValue HpoModel HpoSpec HpoProofs HpoProps LimitsModel LimitsSpec BenchIoModel BenchIoSpec GsModel SchemaModel SchemaSpec SchemaProofs SchemaStartProofs.
Local Open Scope string_scope.
Local Open Scope Z_scope.
Local Open Scope list_scope.

(* C151: a configuration is accepted exactly when it can be read section by section, and then it says what was written *)
Theorem C151_reads o sort metrics data c : sorts sort -> unique_keys (PDict data) -> (parse o sort metrics (PDict data) = Ok c <-> reads o metrics data c).
Proof. intros S U. apply parse_iff; assumption. Qed.
(* C151: what is not a mapping is refused *)
Theorem C151_mapping o sort metrics raw : (forall d, raw <> PDict d) -> parse o sort metrics raw = Err BenchError.
Proof. intros H. destruct raw; try reflexivity. exfalso. eapply H. reflexivity. Qed.
(* C151: a factory, which is code to import, is accepted only where the run allows custom factories *)
Theorem C151_factory o sort metrics data c f ps : sorts sort -> unique_keys (PDict data) -> parse o sort metrics (PDict data) = Ok c -> mc_model (xc_method c) = Some (Factory f ps) ->
  value_at (PDict data) [K "run"; K "allow_custom_factories"] = Some (PBool true).
Proof.
  intros S U E M. apply (C151_reads _ _ _ _ _ S U) in E. destruct E as (_ & (r & Er & Hr) & _ & _ & _ & _ & _ & _ & _ & (m & Em & _ & _ & _ & _ & _ & Hm) & _). rewrite M in Hm.
  destruct Hm as (Hc & _). destruct Hr as (_ & _ & _ & _ & _ & _ & _ & _ & Hf & _). rewrite Hc in Hf. destruct Hf as [Hf|[_ X]]; [|discriminate]. cbn. rewrite Er, Hf. reflexivity.
Qed.
(* C151: a search changes parameters of the method and nothing else *)
Theorem C151_search o sort metrics data c s : sorts sort -> unique_keys (PDict data) -> parse o sort metrics (PDict data) = Ok c -> xc_search c = Some s ->
  forall p x, declares o (PDict (sc_space s)) p x -> exists a r, p = "method" :: "params" :: a :: r.
Proof.
  intros S U E M. apply (C151_reads _ _ _ _ _ S U) in E. destruct E as (_ & _ & _ & _ & _ & _ & _ & _ & _ & _ & _ & Hs). rewrite M in Hs.
  destruct Hs as (d & _ & _ & _ & _ & _ & _ & _ & _ & _ & _ & _ & _ & I). exact I.
Qed.
(* C151: the errors are configuration errors, but for those of int(run.seed) and of numbers in the search space *)
Theorem C151_errors o sort metrics data e : parse o sort metrics (PDict data) = Err e ->
  e = BenchError \/ (exists d, section data "run" d /\ py_int o (get_or d "seed" (PInt 0)) = Err e) \/
  (exists d m, lookup data "search" = Some (PDict d) /\ mapping_at d "space" m /\ HpoModel.from_dict sort o m = Err e /\ e <> HpoError).
Proof. apply parse_errors. Qed.
(* C151: every run of a sweep over a configuration that is accepted has a configuration that is accepted, the same but for
   its name, directory and seeds *)
Theorem C151_sweep o sort metrics data c seed root : sorts sort -> unique_keys (PDict data) -> parse o sort metrics (PDict data) = Ok c ->
  parse o sort metrics (PDict (sweep_raw data (rn_name (xc_run c)) seed root)) = Ok (swept (sweep_run_name (rn_name (xc_run c)) seed) root seed c).
Proof.
  intros S U E. apply (C151_reads _ _ _ _ _ S U) in E. apply parse_iff; [exact S|apply sweep_raw_uk, U|]. apply sweep_reads; [exact E|].
  destruct E as (_ & (r & _ & _ & [_ W] & _) & _). exact W.
Qed.

(* ----- an example ----- *)
Definition sx_run : pydict := [("name", PStr "demo"); ("seeds", PList [PInt 1; PInt 5]); ("benchmark_mode", PBool true)].
Definition sx_with (run : pydict) (metric : string) : pydict :=
  [("run", PDict run);
   ("limits", PDict [("profile", PStr "V100"); ("max_train_samples", PInt 100)]);
   ("dataset", PDict [("id", PStr "toy"); ("download", PBool false); ("cache_dir", PStr "/data")]);
   ("sampling", PDict [("plan", PDict [("split", PStr "holdout")])]);
   ("preprocess", PDict [("fit_on", PStr "train"); ("plan", PDict [("steps", PList [PDict [("id", PStr "core.scale")]])])]);
   ("graph", PDict [("enabled", PBool true); ("spec", PDict [("scheme", PStr "knn")])]);
   ("method", PDict [("kind", PStr "inductive"); ("id", PStr "self_training"); ("params", PDict [("lr", PInt 1)]); ("model", PDict [("classifier_id", PStr "knn")])]);
   ("evaluation", PDict [("report_splits", PList [PStr "val"; PStr "test"]); ("metrics", PList [PStr metric]); ("split_for_model_selection", PStr "val")]);
   ("search", PDict [("enabled", PBool true); ("kind", PStr "grid"); ("objective", PDict [("split", PStr "val"); ("metric", PStr "accuracy"); ("direction", PStr "maximize"); ("aggregate", PStr "mean")]); ("space", PDict ex_space)])].
Definition sx_raw : pydict := sx_with sx_run "accuracy".
Definition sx_parse (d : pydict) := parse ex_oracle HpoProps.same ["accuracy"] (PDict d).
Ltac uk := repeat first [apply uk_dict | apply uk_list | (apply uk_other; discriminate) | apply Forall_cons | apply Forall_nil | apply NoDup_cons | apply NoDup_nil | (cbn; intuition discriminate)].
Definition sx_info (i : string) : result (bool * option string) := if String.eqb i "core.scale" then Ok (true, None) else Err KeyError.
Definition sx_start (load : DatasetConfig -> result (option string * bool)) (c : ExperimentConfig) (d : pydict) :=
  start ex_oracle ["accuracy"] (fun _ _ => Ok false) sx_info (fun _ => Ok tt) (fun _ _ => Ok None) load c (PDict d).
Example C151_example :
  sorts HpoProps.same /\ unique_keys (PDict sx_raw) /\
  (exists c, sx_parse sx_raw = Ok c /\ rn_seeds (xc_run c) = Some [1; 5] /\ option_map lc_profile (xc_limits c) = Some (Some "v100") /\ mc_model (xc_method c) = Some (Classifier "knn" "torch" [] None) /\
     option_map sc_space (xc_search c) = Some ex_space /\ sx_start (fun _ => Ok (None, false)) c sx_raw = Ok ["core.scale"]) /\
  sx_parse (sx_with [("name", PStr " ")] "accuracy") = Err BenchError /\ sx_parse (dset sx_raw "extra" PNone) = Err BenchError /\
  (exists c, sx_parse (sx_with [("name", PStr "d"); ("benchmark_mode", PBool true)] "accuracy") = Ok c) /\
  sx_parse (sx_with [("name", PStr "d"); ("benchmark_mode", PBool true); ("fail_fast", PBool false)] "accuracy") = Err BenchError.
Proof.
  split; [exact C30_example_sorts|]. split; [uk|]. split; [eexists; split; [vm_compute; reflexivity|]; repeat split; vm_compute; reflexivity|].
  split; [vm_compute; reflexivity|]. split; [vm_compute; reflexivity|]. split; [eexists; vm_compute; reflexivity|vm_compute; reflexivity].
Qed.
Example C151_factory_example : exists c f ps,
  sx_parse (dset (sx_with [("name", PStr "d"); ("allow_custom_factories", PBool true)] "accuracy") "method" (PDict [("kind", PStr "inductive"); ("id", PStr "fixmatch"); ("model", PDict [("factory", PStr "pkg:build")])])) = Ok c /\
  mc_model (xc_method c) = Some (Factory f ps) /\
  sx_parse (dset (sx_with [("name", PStr "d")] "accuracy") "method" (PDict [("kind", PStr "inductive"); ("id", PStr "fixmatch"); ("model", PDict [("factory", PStr "pkg:build")])])) = Err BenchError.
Proof. do 3 eexists. split; [vm_compute; reflexivity|]. split; [vm_compute; reflexivity|]. vm_compute. reflexivity. Qed.

(* C151 finding: the seed of the run is not checked as the others are: 1.5 is read as 1, and null is a TypeError, not a configuration error *)
Theorem C151_seed_refuted : exists c half, half = PFloat (S754_finite false 3 (-1)) /\ sx_parse (sx_with [("name", PStr "d"); ("seed", half)] "accuracy") = Ok c /\ rn_seed (xc_run c) = 1 /\
  sx_parse (dset (sx_with [("name", PStr "d")] "accuracy") "sampling" (PDict [("seed", half); ("plan", PDict [("split", PStr "holdout")])])) = Err BenchError /\
  sx_parse (sx_with [("name", PStr "d"); ("seed", PNone)] "accuracy") = Err TypeError.
Proof. eexists _, _. split; [reflexivity|]. split; [vm_compute; reflexivity|]. repeat split; vm_compute; reflexivity. Qed.
(* C151 finding: true and false are seeds, and true is the same seed as 1 *)
Theorem C151_bool_refuted : (exists c, sx_parse (sx_with [("name", PStr "d"); ("seeds", PList [PBool true; PBool false])] "accuracy") = Ok c /\ rn_seeds (xc_run c) = Some [1; 0]) /\
  sx_parse (sx_with [("name", PStr "d"); ("seeds", PList [PBool true; PInt 1])] "accuracy") = Err BenchError.
Proof. split; [eexists; split; vm_compute; reflexivity|vm_compute; reflexivity]. Qed.
(* C151 finding: null for the output directory is not the default but the directory whose name is the text of null *)
Theorem C151_output_refuted o sort : exists c, parse o sort ["accuracy"] (PDict (dpop (sx_with [("name", PStr "d"); ("output_dir", PNone)] "accuracy") "search")) = Ok c /\ rn_output (xc_run c) = show o PNone.
Proof. eexists. split; vm_compute; reflexivity. Qed.

(* C152: a run starts exactly when its steps can be named, the contract holds in benchmark mode, the dataset is there and all
   it needs is there; what it gets is the steps, those of the plan before those of the views *)
Theorem C152_start o sort metrics has_backend step_info extra_ok method_extra load data c ids : sorts sort -> unique_keys (PDict data) -> parse o sort metrics (PDict data) = Ok c ->
  (start o metrics has_backend step_info extra_ok method_extra load c (PDict data) = Ok ids <->
   exists steps vsteps extra g, steps_of o (pc_plan (xc_preprocess c)) steps /\ steps_of_views o (xc_views c) vsteps /\ ids = steps ++ vsteps /\
     (rn_bench (xc_run c) = true -> contract o has_backend c (PDict data)) /\ load (xc_dataset c) = Ok (extra, g) /\
     ready metrics step_info extra_ok method_extra c ids extra g).
Proof. intros S U E. apply start_iff; [exact U|]. apply (C151_reads _ _ _ _ _ S U), E. Qed.
(* C152: in benchmark mode a broken contract stops the run before the dataset is asked for *)
Theorem C152_before_loading o sort metrics has_backend step_info extra_ok method_extra data c : sorts sort -> unique_keys (PDict data) -> parse o sort metrics (PDict data) = Ok c -> rn_bench (xc_run c) = true ->
  ~ contract o has_backend c (PDict data) -> exists e, forall load, start o metrics has_backend step_info extra_ok method_extra load c (PDict data) = Err e.
Proof. intros S U E B N. apply (before_loading o metrics has_backend step_info extra_ok method_extra data c U); [apply (C151_reads _ _ _ _ _ S U), E|exact B|exact N]. Qed.
Example C152_example : exists c, sx_parse sx_raw = Ok c /\ rn_bench (xc_run c) = true /\ sx_start (fun _ => Ok (None, false)) c sx_raw = Ok ["core.scale"] /\
  (exists c', sx_parse (dset sx_raw "dataset" (PDict [("id", PStr "toy")])) = Ok c' /\ ~ contract ex_oracle (fun _ _ => Ok false) c' (PDict (dset sx_raw "dataset" (PDict [("id", PStr "toy")])))).
Proof. eexists. split; [vm_compute; reflexivity|]. split; [vm_compute; reflexivity|]. split; [vm_compute; reflexivity|]. eexists. split; [vm_compute; reflexivity|]. intros [X _]. vm_compute in X. discriminate X. Qed.
(* C152 finding: benchmark mode forbids an automatic backend only where it is written; a graph whose spec names none starts,
   and the backend it is built with is the automatic one *)
Theorem C152_graph_refuted : exists c g, sx_parse sx_raw = Ok c /\ rn_bench (xc_run c) = true /\ sx_start (fun _ => Ok (None, false)) c sx_raw = Ok ["core.scale"] /\ xc_graph c = Some g /\ gc_enabled g = true /\
  exists s, builder_from ex_oracle (gc_spec g) = Ok s /\ bs_backend s = "auto".
Proof. eexists _, _. split; [vm_compute; reflexivity|]. repeat (split; [vm_compute; reflexivity|]). eexists. split; vm_compute; reflexivity. Qed.
(* C152 finding: a metric that does not exist is found only once the dataset has been loaded *)
Theorem C152_metric_refuted : exists c, sx_parse (sx_with [("name", PStr "d")] "acuracy") = Ok c /\
  sx_start (fun _ => Ok (None, false)) c (sx_with [("name", PStr "d")] "acuracy") = Err BenchError /\ sx_start (fun _ => Err FileNotFoundError) c (sx_with [("name", PStr "d")] "acuracy") = Err FileNotFoundError.
Proof. eexists. split; [vm_compute; reflexivity|]. split; vm_compute; reflexivity. Qed.

Print Assumptions C151_reads.
Print Assumptions C151_mapping.
Print Assumptions C151_factory.
Print Assumptions C151_search.
Print Assumptions C151_errors.
Print Assumptions C151_sweep.
Print Assumptions C151_seed_refuted.
Print Assumptions C151_bool_refuted.
Print Assumptions C151_output_refuted.
Print Assumptions C152_start.
Print Assumptions C152_before_loading.
Print Assumptions C152_graph_refuted.
Print Assumptions C152_metric_refuted.
