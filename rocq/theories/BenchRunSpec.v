(* Vocabulary for the benchmark's search, its loop over seeds and the summary. *)
From Coq Require Import String Ascii SpecFloat.
From Verif Require Import Prelude FloatModel PyValue DecString HpoModel HpoSpec LimitsModel BenchRunModel.
Local Open Scope string_scope.
Local Open Scope Z_scope.
Local Open Scope list_scope.
Local Notation length := List.length.

(* ----- search ----- *)
(* a place inside method.params *)
Definition in_method_params (p : list string) : Prop := exists k r, p = "method" :: "params" :: k :: r.

(* ----- the loop over seeds ----- *)
Definition run_failed (x : outcome) : Prop := match x with Raised _ => True | Returned c _ => c <> 0 end.
Definition reports_of (l : list outcome) : list pyval :=
  flat_map (fun x => match x with Raised _ => [] | Returned _ r => [r] end) l.

(* ----- the summary ----- *)
(* the report says "success" and has metrics *)
Definition succeeded (o : Oracle) (r : pyval) : bool :=
  match get_path r ["run"; "status"], get_path r ["metrics"] with
  | Some v, Some (PDict _) => String.eqb (py_str o v) "success"
  | _, _ => false
  end.
(* the number a report gives for a metric, as a float; neither booleans nor other values count *)
Definition number_at (o : Oracle) (r : pyval) (p : list string) : option f64 :=
  match get_path r ("metrics" :: p) with
  | Some (PFloat f) => Some f
  | Some (PInt z) => match f64_of_Z z with S754_infinity _ => None | f => Some f end
  | _ => None
  end.
(* the numbers for a metric, run by run *)
Definition measured (o : Oracle) (reports : list pyval) (p : list string) : list f64 :=
  flat_map (fun r => if succeeded o r then match number_at o r p with Some x => [x] | None => [] end else []) reports.
(* x is the smallest (largest) of the values *)
Definition smallest (l : list f64) (x : f64) : Prop := In x l /\ forall y, In y l -> f64_leb x y = true.
Definition largest (l : list f64) (x : f64) : Prop := In x l /\ forall y, In y l -> f64_leb y x = true.
Definition nan_free (l : list f64) : Prop := Forall (fun x => x <> S754_nan) l.

(* the statistics of some numbers.  mean, deviation: Python's statistics.fmean and statistics.pstdev *)
Definition statistics_of (mean deviation : list f64 -> result f64) (l : list f64) (v : pyval) : Prop :=
  exists a s lo hi, v = PDict [("count", PInt (lenZ l)); ("mean", PFloat a); ("std", PFloat s);
                               ("min", PFloat lo); ("max", PFloat hi); ("values", PList (map PFloat l))] /\
    mean l = Ok a /\ (if 1 <? lenZ l then deviation l = Ok s else s = f64_zero) /\
    (nan_free l -> smallest l lo /\ largest l hi).
