(* C77-C79: the benchmark's search, its loop over seeds, the summary. *)
From Coq Require Import String Ascii SpecFloat ZifyBool ZifyNat.
From Verif Require Import Prelude ListFacts FloatModel PyValue DecString SampleServiceProofs HpoModel HpoSpec HpoProofs LimitsModel BenchRunModel BenchRunSpec BenchRunProofs.
Local Open Scope string_scope.
Local Open Scope Z_scope.
Local Open Scope list_scope.
Local Notation length := List.length.

(* ----- C77 ----- *)
Theorem C77_targets_iff o space : unique_keys (PDict space) -> valid_space o (PDict space) ->
  (check_targets (PDict space) [] = Ok tt <-> forall p x, declares o (PDict space) p x -> in_method_params p) /\
  (forall e, check_targets (PDict space) [] = Err e -> e = BenchError).
Proof. intros U V. split; [apply (check_spec o _ U V [])|apply check_err]. Qed.

Theorem C77_trial_config {S} sort o (R : Rng S) kind space base ts t : sorts sort -> rng_ok R -> unique_keys (PDict space) ->
  search_trials sort o R kind space = Ok ts -> In t ts ->
  (forall p, (forall q x, declares o (PDict space) q x -> ~ comparable q p) ->
     get_path (PDict (trial_config base t)) p = get_path (PDict base) p) /\
  (forall p, ~ comparable ["method"; "params"] p -> get_path (PDict (trial_config base t)) p = get_path (PDict base) p) /\
  (forall q x, declares o (PDict space) q x -> exists v x', get_path (PDict (t_patch t)) q = Some v /\
     declares o (PDict space) q x' /\ allowed x' v /\
     (is_dict v = false -> get_path (PDict (trial_config base t)) q = Some v)).
Proof.
  intros Hs HR U E Ht. pose proof (trials_values sort o R kind space ts Hs HR U E) as F. rewrite Forall_forall in F.
  destruct (F t Ht) as (Up & values & H1 & H2 & H3). destruct (trials_shape sort o R kind space ts Hs U E) as (G & _ & _).
  assert (Nv : values <> []).
  { unfold search_trials in E. apply bind_ok in E. destruct E as ([] & _ & E). apply bind_ok in E. destruct E as (ls & Els & _).
    destruct (proj1 (from_dict_accepts sort Hs o space U) (ex_intro _ ls Els)) as [V _].
    destruct (declared_nonempty o space U V) as (p & x & D). assert (In p (map fst values)) by (apply H2; eauto). intros ->. contradiction. }
  assert (A : forall p, (forall q x, declares o (PDict space) q x -> ~ comparable q p) ->
     get_path (PDict (trial_config base t)) p = get_path (PDict base) p).
  { intros p N. unfold trial_config. eapply trial_frame; [exact Up|exact H1| |congruence]. intros q Hq. apply H2 in Hq. destruct Hq as (x & D). eapply N, D. }
  split; [exact A|]. split.
  - intros p N. apply A. intros q x D C. apply N. destruct (G q x D) as (k & r & ->).
    destruct C as [(s & ->)|(s & Es)]; [left; exists (k :: r ++ s); reflexivity|].
    destruct p as [|a [|b p]]; [right; exists ["method"; "params"]; reflexivity| |].
    + injection Es as <- _. right. exists ["params"]. reflexivity.
    + injection Es as <- <- _. left. exists p. reflexivity.
  - intros q x D. assert (Hq : In q (map fst values)) by (apply H2; eauto). apply in_map_iff in Hq. destruct Hq as ([q' v] & <- & Hin).
    cbn [fst] in *. destruct (H3 q' v Hin) as (x' & D' & Al). exists v, x'. destruct H1 as [H1 _]. pose proof (H1 q' v Hin) as Gp.
    split; [exact Gp|]. split; [exact D'|]. split; [exact Al|]. intros Nd. unfold trial_config. apply merge_scalar; auto.
Qed.

(* the trial returned is one that no other beats, the first one in case of a tie *)
Theorem C77_best_trial {S} sort o (R : Rng S) objective maximize kind space base best : sorts sort -> unique_keys (PDict space) ->
  run_hpo sort o R objective maximize kind space base = Ok best ->
  exists ts ss s, search_trials sort o R kind space = Ok ts /\
    Forall2 (fun t s => objective (t_index t) (trial_config base t) = Ok s) ts ss /\ In (best, s) (combine ts ss) /\
    forall t u, In (t, u) (combine ts ss) ->
      ~ beats maximize (counted maximize u) (counted maximize s) /\ (counted maximize u = counted maximize s -> t_index best <= t_index t).
Proof. apply run_hpo_spec. Qed.

Theorem C77_search_returns {S} sort o (R : Rng S) objective maximize kind space base ts ss : search_trials sort o R kind space = Ok ts -> ts <> [] ->
  Forall2 (fun t s => objective (t_index t) (trial_config base t) = Ok s) ts ss ->
  exists best, run_hpo sort o R objective maximize kind space base = Ok best.
Proof. apply run_hpo_total. Qed.

Definition ex_oracle : Oracle := {| parse_int := fun _ => None; parse_float := fun _ => None; show := fun _ => "" |}.
Definition no_rng : Rng unit :=
  {| r_int := fun s a _ => (a, s); r_uniform := fun s a _ => (Err OverflowError, s); m_log := fun x => Ok x; m_exp := fun x => Ok x |}.
Definition batch_space : pydict := [("method", PDict [("params", PDict [("batch_size", PList [PInt 64; PInt 128])])])].
Definition batch_base : pydict := [("method", PDict [("id", PStr "m"); ("params", PDict [("batch_size", PInt 16); ("steps", PInt 7)])])].
(* larger batches score better *)
Definition batch_score (_ : Z) (c : pydict) : result score :=
  match get_path (PDict c) ["method"; "params"; "batch_size"] with Some (PInt z) => Ok (Fin z) | _ => Err KeyError end.
Definition batch_limits : LimitsConfig :=
  {| lc_profile := None; lc_preprocess_batch := None; lc_method_batch := Some 32; lc_method_sup_batch := None; lc_graph_chunk := None;
     lc_train_samples := None; lc_test_samples := None |}.

(* The limits are applied to the search's result only: the final run then uses settings that no trial used. *)
Theorem C77_limits_after_search_refuted :
  exists best c cs l, run_hpo (fun x => x) ex_oracle no_rng batch_score true GridSearch batch_space batch_base = Ok best /\
    get_path (PDict (t_patch best)) ["method"; "params"; "batch_size"] = Some (PInt 128) /\
    final_config ex_oracle (fun x => x) None batch_base (Some batch_limits) false best = Ok (c, cs, l) /\
    get_path (PDict c) ["method"; "params"; "batch_size"] = Some (PInt 32) /\
    (forall ts t, search_trials (fun x => x) ex_oracle no_rng GridSearch batch_space = Ok ts -> In t ts ->
       get_path (PDict (trial_config batch_base t)) ["method"; "params"; "batch_size"] <> Some (PInt 32)).
Proof.
  eexists. eexists. eexists. eexists. split; [vm_compute; reflexivity|]. split; [vm_compute; reflexivity|]. split; [vm_compute; reflexivity|].
  split; [vm_compute; reflexivity|]. intros ts t E. vm_compute in E. injection E as <-. intros [<-|[<-|[]]]; vm_compute; discriminate.
Qed.

(* A candidate that is a mapping is merged into the base's mapping: the trial does not run with the chosen value. *)
Definition opt_space : pydict := [("method", PDict [("params", PDict [("opt", PList [PDict [("lr", PInt 1)]])])])].
Definition opt_base : pydict := [("method", PDict [("params", PDict [("opt", PDict [("momentum", PInt 9)])])])].
Theorem C77_mapping_candidate_refuted :
  exists t, search_trials (fun x => x) ex_oracle no_rng GridSearch opt_space = Ok [t] /\
    get_path (PDict (t_patch t)) ["method"; "params"; "opt"] = Some (PDict [("lr", PInt 1)]) /\
    get_path (PDict (trial_config opt_base t)) ["method"; "params"; "opt"] = Some (PDict [("momentum", PInt 9); ("lr", PInt 1)]).
Proof. eexists. split; [vm_compute; reflexivity|]. split; vm_compute; reflexivity. Qed.

Lemma batch_uk : unique_keys (PDict batch_space).
Proof. repeat (apply uk_dict; [repeat constructor; intros []|]; apply Forall_cons; [cbn [snd]|apply Forall_nil]).
  apply uk_list. repeat constructor; try discriminate. Qed.
Example C77_satisfiable : unique_keys (PDict batch_space) /\ valid_space ex_oracle (PDict batch_space) /\ rng_ok no_rng /\
  declares ex_oracle (PDict batch_space) ["method"; "params"; "batch_size"] (Listed [PInt 64; PInt 128]) /\
  (exists t0 t1, search_trials (fun x => x) ex_oracle no_rng GridSearch batch_space = Ok [t0; t1] /\
     trial_config batch_base t1 = [("method", PDict [("id", PStr "m"); ("params", PDict [("batch_size", PInt 128); ("steps", PInt 7)])])]) /\
  check_targets (PDict [("method", PDict [("id", PList [PStr "a"])])]) [] = Err BenchError.
Proof.
  split; [apply batch_uk|]. split; [|split; [|split; [|split]]].
  - destruct (proj1 (from_dict_accepts (fun x => x) (fun l => Permutation_refl l) ex_oracle batch_space batch_uk)) as [V _]; [|exact V].
    eexists. vm_compute. reflexivity.
  - split; [|split]; cbn; try (intros; lia); intros; discriminate.
  - repeat (eapply de_key; [reflexivity|reflexivity|]). constructor. discriminate.
  - eexists. eexists. split; [vm_compute; reflexivity|vm_compute; reflexivity].
  - reflexivity.
Qed.

(* ----- C78 ----- *)
Theorem C78_all_seeds_run single seeds : exists code,
  run_sweep false single seeds = (seeds, Ok (code, match reports_of (map single seeds) with [] => None | l => Some l end)) /\
  (code = 0 \/ code = 1) /\ (code = 0 <-> forall s, In s seeds -> ~ run_failed (single s)).
Proof.
  destruct (sweep_all single seeds) as (reps & f & E & -> & Hf & Hi). unfold run_sweep. rewrite E. cbn [bind].
  exists (if f =? 0 then 0 else 1). split; [destruct (reports_of (map single seeds)); reflexivity|]. destruct (Z.eqb_spec f 0) as [->|N]; [split; [auto|tauto]|]. split; [auto|]. split; [discriminate|].
  intros H. exfalso. apply N, Hi, H.
Qed.

Theorem C78_stops_at_the_first_failure single seeds :
  (forall s, In s seeds -> ~ run_failed (single s)) /\
    run_sweep true single seeds = (seeds, Ok (0, match reports_of (map single seeds) with [] => None | l => Some l end)) \/
  exists front s back e, seeds = front ++ s :: back /\ (forall x, In x front -> ~ run_failed (single x)) /\ run_failed (single s) /\
    run_sweep true single seeds = (front ++ [s], Err e) /\
    match single s with Raised e' => e = e' | Returned _ _ => e = BenchError end.
Proof.
  unfold run_sweep. destruct (sweep_stop single seeds) as [(A & B)|(front & s & back & e & A & B & C & D & F)].
  - left. split; [exact A|]. rewrite B. cbn [bind]. destruct (reports_of (map single seeds)); reflexivity.
  - right. exists front, s, back, e. rewrite D. auto.
Qed.

(* the seeds: seed, seed + 1, ..., as many as asked for; else the configured ones; else a single run *)
Theorem C78_seeds num_runs seed seeds :
  match num_runs with
  | Some n => (n <= 0 -> sweep_seeds num_runs seed seeds = Err ValueError) /\
              (0 < n -> exists l, sweep_seeds num_runs seed seeds = Ok (Some l) /\ lenZ l = n /\
                 forall i, (i < length l)%nat -> nth i l 0 = seed + Z.of_nat i)
  | None => sweep_seeds num_runs seed seeds = Ok (if Nat.eqb (length seeds) 0 then None else Some seeds)
  end.
Proof.
  destruct num_runs as [n|]; [|destruct seeds; reflexivity]. unfold sweep_seeds. destruct (Z.leb_spec n 0); split; intros; try lia; [reflexivity|].
  exists (map (fun i => seed + i) (arange n)). split; [reflexivity|].
  assert (L : length (arange n) = Z.to_nat n) by apply arange_length.
  split; [unfold lenZ; rewrite map_length, L; lia|]. rewrite map_length, L. intros i Hi.
  rewrite (nth_indep _ 0 (seed + 0)) by (rewrite map_length, L; exact Hi). rewrite map_nth. f_equal.
  unfold arange. change 0 with (Z.of_nat 0) at 1. rewrite map_nth, seq_nth by exact Hi. reflexivity.
Qed.

Example C78_satisfiable :
  run_sweep false (fun s => if s =? 2 then Raised RuntimeError else Returned 0 (PInt s)) [1; 2; 3] = ([1; 2; 3], Ok (1, Some [PInt 1; PInt 3])) /\
  run_sweep true (fun s => if s =? 2 then Returned 1 PNone else Returned 0 (PInt s)) [1; 2; 3] = ([1; 2], Err BenchError) /\
  sweep_seeds (Some 3) 40 [1] = Ok (Some [40; 41; 42]) /\ run_failed (Returned 1 PNone).
Proof. repeat split; cbn; discriminate. Qed.

(* ----- C79 ----- *)
Theorem C79_summary o fmean pstdev sortp requested reports s : (forall l, Permutation (sortp l) l) -> Forall unique_keys reports ->
  (forall p q, measured o reports p <> [] -> measured o reports q <> [] -> comparable p q -> p = q) ->
  summarise o fmean pstdev sortp requested reports = Ok s ->
  exists values, holds (s_metrics s) values /\ NoDup (map fst values) /\ (forall p, In p (map fst values) <-> measured o reports p <> []) /\
    forall p v, In (p, v) values -> statistics_of fmean pstdev (measured o reports p) v.
Proof. intros P U Sp E. apply (summarise_spec o fmean pstdev sortp requested reports s P U Sp E). Qed.

Theorem C79_counts_partial o fmean pstdev sortp requested reports s : Forall unique_keys reports ->
  summarise o fmean pstdev sortp requested reports = Ok s ->
  let good := lenZ (filter (succeeded o) reports) in
  s_requested s = lenZ requested /\ s_completed s = lenZ reports /\ s_successful s = good /\ s_failed s = lenZ reports - good /\
  (s_status s = "success" <-> forall r, In r reports -> succeeded o r = true) /\
  (s_status s = "failed" <-> reports <> [] /\ forall r, In r reports -> succeeded o r = false) /\
  (s_status s = "success" \/ s_status s = "failed" \/ s_status s = "partial_failure").
Proof. apply counts_spec. Qed.

(* A run that raised leaves no report: the summary calls the sweep a success without a failed run although the
   exit code is 1. *)
Definition good_report (a : f64) : pyval :=
  PDict [("run", PDict [("status", PStr "success")]); ("metrics", PDict [("test", PDict [("accuracy", PFloat a); ("n", PInt 3); ("ok", PBool true)])])].
Definition first_value (l : list f64) : result f64 := match l with x :: _ => Ok x | [] => Err ValueError end.
Theorem C79_raised_run_is_missing_refuted :
  exists reports s, run_sweep false (fun s => if s =? 2 then Raised RuntimeError else Returned 0 (good_report f64_one)) [1; 2] = ([1; 2], Ok (1, Some reports)) /\
    summarise ex_oracle first_value first_value (fun l => l) [1; 2] reports = Ok s /\ s_status s = "success" /\ s_failed s = 0 /\ s_requested s = 2 /\ s_completed s = 1.
Proof. eexists. eexists. split; [vm_compute; reflexivity|]. split; [vm_compute; reflexivity|]. vm_compute. auto. Qed.

Lemma good_places a p : number_at ex_oracle (good_report a) p <> None -> p = ["test"; "accuracy"] \/ p = ["test"; "n"].
Proof.
  unfold number_at, good_report.
  change (get_path _ ("metrics" :: p)) with (get_path (PDict [("test", PDict [("accuracy", PFloat a); ("n", PInt 3); ("ok", PBool true)])]) p).
  destruct p as [|k [|k2 r]]; cbn [get_path]; [congruence| |]; rewrite lookup_cons; destruct (String.eqb_spec "test" k) as [<-|]; try (cbn; congruence).
  rewrite !lookup_cons. destruct (String.eqb_spec "accuracy" k2) as [<-|]; [destruct r; [auto|cbn; congruence]|].
  destruct (String.eqb_spec "n" k2) as [<-|]; [destruct r; [auto|cbn; congruence]|].
  destruct (String.eqb_spec "ok" k2) as [<-|]; destruct r; cbn; congruence.
Qed.
Definition two_reports : list pyval :=
  [good_report f64_one; PDict [("run", PDict [("status", PStr "failed")]); ("metrics", PNone)]; good_report f64_zero].
Example C79_satisfiable :
  (exists s, summarise ex_oracle first_value first_value (fun l => l) [1; 2; 3] two_reports = Ok s /\ s_status s = "partial_failure" /\
     get_path (PDict (s_metrics s)) ["test"; "accuracy"; "values"] = Some (PList [PFloat f64_one; PFloat f64_zero]) /\
     get_path (PDict (s_metrics s)) ["test"; "accuracy"; "min"] = Some (PFloat f64_zero) /\
     get_path (PDict (s_metrics s)) ["test"; "ok"] = None) /\
  measured ex_oracle two_reports ["test"; "accuracy"] = [f64_one; f64_zero] /\
  Forall unique_keys two_reports /\ nan_free [f64_one; f64_zero] /\
  (forall p q, measured ex_oracle two_reports p <> [] -> measured ex_oracle two_reports q <> [] -> comparable p q -> p = q).
Proof.
  split; [eexists; split; [vm_compute; reflexivity|]; vm_compute; auto|]. split; [vm_compute; reflexivity|].
  assert (U : Forall unique_keys two_reports).
  { repeat apply Forall_cons; try apply Forall_nil; unfold good_report;
    repeat first [apply uk_other; intros; discriminate | apply uk_dict; [repeat constructor; cbn; intuition discriminate|repeat (apply Forall_cons; cbn [snd]); try apply Forall_nil]]. }
  split; [exact U|]. split; [repeat constructor; discriminate|].
  assert (X : forall p, measured ex_oracle two_reports p <> [] -> p = ["test"; "accuracy"] \/ p = ["test"; "n"]).
  { intros p H. destruct (measured_inv _ _ _ H) as (r & Hr & N). destruct Hr as [<-|[<-|[<-|[]]]]; [eapply good_places, N| |eapply good_places, N].
    exfalso. apply N. unfold number_at. destruct p; reflexivity. }
  intros p q Hp Hq C. destruct (X p Hp) as [->| ->], (X q Hq) as [->| ->]; try reflexivity; destruct C as [(r & E)|(r & E)]; discriminate.
Qed.

Print Assumptions C77_targets_iff.
Print Assumptions C77_trial_config.
Print Assumptions C77_best_trial.
Print Assumptions C77_search_returns.
Print Assumptions C77_limits_after_search_refuted.
Print Assumptions C77_mapping_candidate_refuted.
Print Assumptions C78_all_seeds_run.
Print Assumptions C78_stops_at_the_first_failure.
Print Assumptions C78_seeds.
Print Assumptions C79_summary.
Print Assumptions C79_counts_partial.
Print Assumptions C79_raised_run_is_missing_refuted.
