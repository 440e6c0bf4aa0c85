(* The benchmark runner's hyper-parameter search, its loop over seeds and the summary of the loop. *)
From Coq Require Import String Ascii SpecFloat.
From Verif Require Import Prelude FloatModel PyValue DecString HpoModel LimitsModel.
Local Open Scope string_scope.
Local Open Scope Z_scope.
Local Open Scope list_scope.
Local Notation length := List.length.

(* ------------------------------------------------------------------ search *)
(* _check_path (bench/orchestrators/hpo.py 24-29) *)
Definition target_path (p : list string) : result unit :=
  match p with
  | a :: b :: _ :: _ => if String.eqb a "method" && String.eqb b "params" then Ok tt else Err BenchError
  | _ => Err BenchError
  end.
(* _walk (hpo.py 31-50) *)
Fixpoint check_targets (v : pyval) (path : list string) : result unit :=
  match v with
  | PList [] => Err BenchError
  | PList _ => target_path path
  | PDict [] => Err BenchError
  | PDict d =>
      if memS "dist" (keys d) then target_path path
      else (fix go (d : list (string * pyval)) : result unit :=
              match d with
              | [] => Ok tt
              | (k, w) :: r => if String.eqb k "" then Err BenchError
                               else do _ <- check_targets w (path ++ [k]); go r
              end) d
  | _ => Err BenchError
  end.

Inductive search_kind (S : Type) := GridSearch | RandomSearch (seed : S) (n_trials : Z).
Arguments GridSearch {S}. Arguments RandomSearch {S}.

Section Search.
Context {S : Type}.
Variable sort : list string -> list string.
Variable o : Oracle.
Variable R : Rng S.

(* run_hpo (hpo.py 65-83): the trials *)
Definition search_trials (kind : search_kind S) (space : pydict) : result (list trial) :=
  do _ <- check_targets (PDict space) [];
  do ls <- from_dict sort o space;
  match kind with GridSearch => iter_grid sort ls | RandomSearch seed n => iter_random sort R ls seed n end.

(* hpo.py 101: the configuration a trial is scored with *)
Definition trial_config (base : pydict) (t : trial) : pydict := deep_merge base (t_patch t).

(* run_hpo (hpo.py 97-154).  objective: the aggregated score of a configuration, over the repeats, whose seeds
   depend on the trial's number; it may raise. *)
Fixpoint score_all (objective : Z -> pydict -> result score) (base : pydict) (ts : list trial) : result (list (Z * score)) :=
  match ts with
  | [] => Ok []
  | t :: r => do s <- objective (t_index t) (trial_config base t); do l <- score_all objective base r; Ok ((t_index t, s) :: l)
  end.
Definition run_hpo (objective : Z -> pydict -> result score) (maximize : bool) (kind : search_kind S) (space base : pydict) : result trial :=
  do ts <- search_trials kind space;
  do scores <- score_all objective base ts;
  do i <- best_trial maximize scores;
  match find (fun t => t_index t =? i) ts with Some t => Ok t | None => Err ValueError end.

(* main.py 896-905: the configuration of the final run *)
Definition final_config (lower : string -> string) (detected : option string) (raw : pydict) (limits : option LimitsConfig) (strict : bool) (best : trial)
  : result (pydict * list change * option ResolvedLimits) :=
  apply_limits o lower detected (trial_config raw best) limits strict.
End Search.

(* ------------------------------------------------------------------ the loop over seeds
   What one run does (_run_experiment_single, main.py 538-1019): it raises, or returns its exit code and the
   report it has written. *)
Inductive outcome := Raised (e : exn) | Returned (code : Z) (report : pyval).

(* main.py 1023-1042: the seeds of the sweep, or None for a single run *)
Definition sweep_seeds (num_runs : option Z) (seed : Z) (seeds : list Z) : result (option (list Z)) :=
  match num_runs with
  | Some n => if n <=? 0 then Err ValueError else Ok (Some (map (fun i => seed + i) (arange n)))
  | None => match seeds with [] => Ok None | _ => Ok (Some seeds) end
  end.

(* main.py 1050-1076: the runs started, then the reports and the number of failures, or the exception.
   stop: benchmark_mode or fail_fast *)
Fixpoint sweep_loop (stop : bool) (single : Z -> outcome) (seeds : list Z) : list Z * result (list pyval * Z) :=
  match seeds with
  | [] => ([], Ok ([], 0))
  | s :: r =>
      let go (add : list pyval * Z -> list pyval * Z) :=
        let '(called, out) := sweep_loop stop single r in (s :: called, do x <- out; Ok (add x)) in
      match single s with
      | Raised e => if stop then ([s], Err e) else go (fun '(reps, f) => (reps, f + 1))
      | Returned code rep =>
          if code =? 0 then go (fun '(reps, f) => (rep :: reps, f))
          else if stop then ([s], Err BenchError) else go (fun '(reps, f) => (rep :: reps, f + 1))
      end
  end.
(* main.py 1078-1091: the exit code, and the reports given to the summary, if it is written *)
Definition run_sweep (stop : bool) (single : Z -> outcome) (seeds : list Z) : list Z * result (Z * option (list pyval)) :=
  let '(called, out) := sweep_loop stop single seeds in
  (called, do ' (reps, failures) <- out;
           Ok (if failures =? 0 then 0 else 1, match reps with [] => None | _ => Some reps end)).

(* ------------------------------------------------------------------ the summary *)
(* _iter_numeric_metric_leaves (bench/orchestrators/reporting.py 83-95) *)
Fixpoint numeric_leaves (o : Oracle) (v : pyval) : result (list (list string * f64)) :=
  match v with
  | PInt _ | PFloat _ => do x <- py_float o v; Ok [([], x)]
  | PDict d =>
      (fix go (d : list (string * pyval)) : result (list (list string * f64)) :=
         match d with
         | [] => Ok []
         | (k, w) :: r => do a <- numeric_leaves o w; do b <- go r; Ok (map (fun px => (k :: fst px, snd px)) a ++ b)
         end) d
  | _ => Ok []
  end.
(* _set_nested (reporting.py 98-108) *)
Fixpoint set_nested (d : pydict) (p : list string) (v : pyval) : result pydict :=
  match p with
  | [] => Err ValueError
  | [k] => Ok (dset d k v)
  | k :: r => do x <- set_nested (match lookup d k with Some (PDict b) => b | _ => [] end) r v; Ok (dset d k (PDict x))
  end.

Definition path_eqb (p q : list string) : bool := if list_eq_dec string_dec p q then true else false.
(* metric_values.setdefault(path, []).append(value) (reporting.py 146-147) *)
Fixpoint add_value (acc : list (list string * list f64)) (p : list string) (x : f64) : list (list string * list f64) :=
  match acc with
  | [] => [(p, [x])]
  | (q, vs) :: r => if path_eqb q p then (q, vs ++ [x]) :: r else (q, vs) :: add_value r p x
  end.
(* Python's min and max *)
Definition py_min (x : f64) (l : list f64) : f64 := fold_left (fun m y => if f64_ltb y m then y else m) l x.
Definition py_max (x : f64) (l : list f64) : f64 := fold_left (fun m y => if f64_ltb m y then y else m) l x.

Section Summary.
Variable o : Oracle.
Variables fmean pstdev : list f64 -> result f64.                                     (* statistics *)
Variable sortp : list (list string * list f64) -> list (list string * list f64).   (* sorted *)

(* reporting.py 149-163 *)
Definition stats (vs : list f64) : result pyval :=
  match vs with
  | [] => Err ValueError
  | x :: r =>
      do m <- fmean vs;
      do s <- (if 1 <? lenZ vs then pstdev vs else Ok f64_zero);
      Ok (PDict [("count", PInt (lenZ vs)); ("mean", PFloat m); ("std", PFloat s);
                 ("min", PFloat (py_min x r)); ("max", PFloat (py_max x r)); ("values", PList (map PFloat vs))])
  end.
Fixpoint set_all (d : pydict) (l : list (list string * list f64)) : result pydict :=
  match l with
  | [] => Ok d
  | (p, vs) :: r => do s <- stats vs; do d' <- set_nested d p s; set_all d' r
  end.

Record summary := { s_metrics : pydict; s_requested : Z; s_completed : Z; s_successful : Z; s_failed : Z; s_status : string }.

(* one turn of the loop of reporting.py 126-147: the number of successful runs and the values so far *)
Definition take_report (acc : Z * list (list string * list f64)) (report : pyval) : result (Z * list (list string * list f64)) :=
  match report with
  | PDict d =>
      match get_or d "run" (PDict []) with
      | PDict run =>
          let status := py_str o (get_or run "status" (PStr "unknown")) in
          match String.eqb status "success", lookup d "metrics" with
          | true, Some (PDict m) =>
              do ls <- numeric_leaves o (PDict m);
              Ok (fst acc + 1, fold_left (fun a px => add_value a (fst px) (snd px)) ls (snd acc))
          | _, _ => Ok acc
          end
      | _ => Err AttributeError
      end
  | _ => Err AttributeError
  end.
Fixpoint take_reports (acc : Z * list (list string * list f64)) (l : list pyval) : result (Z * list (list string * list f64)) :=
  match l with [] => Ok acc | r :: t => do a <- take_report acc r; take_reports a t end.

(* write_seed_sweep_summary (reporting.py 111-198) *)
Definition summarise (requested : list Z) (reports : list pyval) : result summary :=
  do ' (ok, values) <- take_reports (0, []) reports;
  do m <- set_all [] (sortp values);
  let failed := lenZ reports - ok in
  Ok {| s_metrics := m; s_requested := lenZ requested; s_completed := lenZ reports; s_successful := ok; s_failed := failed;
        s_status := if failed =? 0 then "success" else if 0 <? ok then "partial_failure" else "failed" |}.
End Summary.
