(* Model of src/modssc/hpo (patching.py, space.py, samplers.py) and of the choice of the best trial in
   bench/orchestrators/hpo.py.

   Mappings are Python dictionaries with string keys (PDict, insertion order).  copy.deepcopy is the
   identity on values.  sorted(...) on strings is any function that permutes its argument. *)
From Coq Require Import String SpecFloat.
From Verif Require Import Prelude FloatModel PyValue.
Local Open Scope Z_scope.
Local Open Scope list_scope.

(* d[k] = v *)
Fixpoint dset {A} (d : list (string * A)) (k : string) (v : A) : list (string * A) :=
  match d with
  | [] => [(k, v)]
  | (k', w) :: r => if String.eqb k' k then (k', v) :: r else (k', w) :: dset r k v
  end.
Fixpoint assoc_or {A} (k : string) (l : list (string * A)) (dflt : A) : A :=
  match l with [] => dflt | (k', v) :: r => if String.eqb k' k then v else assoc_or k r dflt end.

(* --------------------------------------------------------------------------- patching.py:24-31 *)
(* merge_into old v: what merged[key] becomes when patch has value v and merged had value old *)
Fixpoint merge_into (old : option pyval) (v : pyval) : pyval :=
  match old, v with
  | Some (PDict b), PDict p =>
      PDict ((fix go (b : pydict) (p : list (string * pyval)) : pydict :=
                match p with
                | [] => b
                | (k, w) :: r => go (dset b k (merge_into (lookup b k) w)) r
                end) b p)
  | _, _ => v
  end.
Fixpoint deep_merge (base : pydict) (patch : pydict) : pydict :=
  match patch with
  | [] => base
  | (k, w) :: r => deep_merge (dset base k (merge_into (lookup base k) w)) r
  end.

(* --------------------------------------------------------------------------- patching.py:8-21 *)
Section Sorted.
Variable sort : list string -> list string.        (* sorted(node.keys()) *)

(* the leaves _walk visits, in its order, as paths below the node *)
Fixpoint entries (v : pyval) : list (list string * pyval) :=
  match v with
  | PDict (x :: d) =>
      let subs := (fix go (d : list (string * pyval)) : list (string * list (list string * pyval)) :=
                     match d with
                     | [] => []
                     | (k, w) :: r => (k, map (fun e => (k :: fst e, snd e)) (entries w)) :: go r
                     end) (x :: d) in
      flat_map (fun k => assoc_or k subs []) (sort (map fst (x :: d)))
  | _ => [([], v)]
  end.
Definition join (p : list string) : string := String.concat "." p.
Definition flatten_patch (patch : pydict) : pydict :=
  match patch with
  | [] => []
  | _ => fold_left (fun out e => dset out (join (fst e)) (snd e)) (entries (PDict patch)) []
  end.

(* ----------------------------------------------------------------------------- samplers.py *)
Inductive distribution :=
| Uniform (low high : f64) | LogUniform (low high : f64) | RandInt (low high : Z) | Choice (values : list pyval).

(* samplers.py:12-15 _require_real (bool is excluded), samplers.py:18-21 _require_int *)
Definition require_real (o : Oracle) (v : pyval) : result f64 :=
  match v with PInt _ | PFloat _ => py_float o v | _ => Err HpoError end.
Definition require_int (v : pyval) : result Z := match v with PInt z => Ok z | _ => Err HpoError end.

Definition f64_geb (a b : f64) : bool := f64_leb b a.
Definition f64_positive (a : f64) : bool := f64_ltb f64_zero a.

(* samplers.py:24-74 validate_distribution; node.get("low") etc. give PNone when the key is absent *)
Definition validate_distribution (o : Oracle) (dist : string) (low high values : pyval) : result distribution :=
  if String.eqb dist "uniform" then
    match low, high with
    | PNone, _ | _, PNone => Err HpoError
    | _, _ => do a <- require_real o low; do b <- require_real o high;
              if f64_geb a b then Err HpoError
              else match values with PNone => Ok (Uniform a b) | _ => Err HpoError end
    end
  else if String.eqb dist "loguniform" then
    match low, high with
    | PNone, _ | _, PNone => Err HpoError
    | _, _ => do a <- require_real o low; do b <- require_real o high;
              if f64_leb a f64_zero then Err HpoError
              else if f64_geb a b then Err HpoError
              else match values with PNone => Ok (LogUniform a b) | _ => Err HpoError end
    end
  else if String.eqb dist "randint" then
    match low, high with
    | PNone, _ | _, PNone => Err HpoError
    | _, _ => do a <- require_int low; do b <- require_int high;
              if b <=? a then Err HpoError
              else match values with PNone => Ok (RandInt a b) | _ => Err HpoError end
    end
  else if String.eqb dist "choice" then
    match values with
    | PList (x :: l) => match low, high with PNone, PNone => Ok (Choice (x :: l)) | _, _ => Err HpoError end
    | _ => Err HpoError
    end
  else Err HpoError.

(* --------------------------------------------------------------------------- space.py:28-77 *)
Record leaf := { lf_path : list string; lf_values : option (list pyval); lf_dist : option distribution }.
Definition under (k : string) (l : leaf) : leaf :=
  {| lf_path := k :: lf_path l; lf_values := lf_values l; lf_dist := lf_dist l |}.

(* space.py:44-67 *)
Definition dist_leaf (o : Oracle) (d : pydict) : result leaf :=
  if existsb (fun k => negb (memS k ["dist"; "low"; "high"; "values"]%string)) (keys d) then Err HpoError
  else match get_or d "values" PNone with
       | PNone | PList _ =>
           do spec <- validate_distribution o (py_str o (get_or d "dist" PNone)) (get_or d "low" PNone)
                        (get_or d "high" PNone) (get_or d "values" PNone);
           Ok {| lf_path := []; lf_values := match spec with Choice vs => Some vs | _ => None end;
                 lf_dist := Some spec |}
       | _ => Err HpoError
       end.

Fixpoint concat_keys {B} (f : string -> result (list B)) (l : list string) : result (list B) :=
  match l with [] => Ok [] | k :: r => do a <- f k; do t <- concat_keys f r; Ok (a ++ t) end.

(* space.py:37-74 _walk, leaf paths relative to the node *)
Fixpoint walk (o : Oracle) (root : bool) (v : pyval) : result (list leaf) :=
  match v with
  | PList [] => Err HpoError
  | PList l => Ok [{| lf_path := []; lf_values := Some l; lf_dist := None |}]
  | PDict [] => Err HpoError
  | PDict d =>
      if memS "dist" (keys d)
      then if root then Err HpoError else do lf <- dist_leaf o d; Ok [lf]
      else let subs := (fix go (d : list (string * pyval)) : list (string * result (list leaf)) :=
                          match d with
                          | [] => []
                          | (k, w) :: r => (k, walk o false w) :: go r
                          end) d in
           concat_keys (fun k => if String.eqb k "" then Err HpoError
                                 else do ls <- assoc_or k subs (Ok []); Ok (map (under k) ls)) (sort (keys d))
  | _ => Err HpoError
  end.
(* space.py:28-77 Space.from_dict; walk never returns no leaf (space.py:24) on the mappings it accepts *)
Definition from_dict (o : Oracle) (d : pydict) : result (list leaf) :=
  do ls <- walk o true (PDict d);
  match ls with [] => Err HpoError | _ => Ok ls end.

(* ------------------------------------------------------------------------- space.py:108-112 *)
Fixpoint assign (d : pydict) (p : list string) (v : pyval) : result pydict :=
  match p with
  | [] => Err IndexError
  | [k] => Ok (dset d k v)
  | k :: r =>
      match lookup d k with
      | None => do x <- assign [] r v; Ok (dset d k (PDict x))
      | Some (PDict b) => do x <- assign b r v; Ok (dset d k (PDict x))
      | Some _ => Err TypeError
      end
  end.
Fixpoint assign_all (d : pydict) (ls : list leaf) (vs : list pyval) : result pydict :=
  match ls, vs with
  | l :: lr, v :: vr => do d' <- assign d (lf_path l) v; assign_all d' lr vr
  | _, _ => Ok d
  end.

(* --------------------------------------------------------------------------- space.py:79-90 *)
Record trial := { t_index : Z; t_patch : pydict; t_params : pydict }.
(* itertools.product *)
Fixpoint product (l : list (list pyval)) : list (list pyval) :=
  match l with [] => [[]] | vs :: r => flat_map (fun v => map (cons v) (product r)) vs end.
Fixpoint grids (ls : list leaf) : result (list (list pyval)) :=
  match ls with
  | [] => Ok []
  | l :: r => match lf_values l with None => Err HpoError | Some vs => do t <- grids r; Ok (vs :: t) end
  end.
Fixpoint number (ls : list leaf) (i : Z) (combos : list (list pyval)) : result (list trial) :=
  match combos with
  | [] => Ok []
  | c :: r => do p <- assign_all [] ls c;
              do t <- number ls (i + 1) r;
              Ok ({| t_index := i; t_patch := p; t_params := flatten_patch p |} :: t)
  end.
Definition iter_grid (ls : list leaf) : result (list trial) :=
  do gs <- grids ls; number ls 0 (product gs).

(* ------------------------------------------------------- space.py:92-105, samplers.py:77-101 *)
(* numpy's generator; exp and log from math *)
Record Rng (S : Type) := {
  r_int : S -> Z -> Z -> Z * S;                      (* rng.integers(low, high) *)
  r_uniform : S -> f64 -> f64 -> result f64 * S;     (* rng.uniform(low, high) *)
  m_log : f64 -> result f64; m_exp : f64 -> result f64
}.
Arguments r_int {S}. Arguments r_uniform {S}. Arguments m_log {S}. Arguments m_exp {S}.
Section Random.
Context {S : Type}.
Variable R : Rng S.
Definition sample_from_values (vs : list pyval) (s : S) : result (pyval * S) :=
  match vs with
  | [] => Err HpoError
  | _ => let '(i, s') := r_int R s 0 (lenZ vs) in Ok (nth (Z.to_nat i) vs PNone, s')
  end.
Definition sample_distribution (d : distribution) (s : S) : result (pyval * S) :=
  match d with
  | Uniform a b => let '(r, s') := r_uniform R s a b in do x <- r; Ok (PFloat x, s')
  | LogUniform a b => do la <- m_log R a; do lb <- m_log R b;
                      let '(r, s') := r_uniform R s la lb in do x <- r; do y <- m_exp R x; Ok (PFloat y, s')
  | RandInt a b => let '(z, s') := r_int R s a b in Ok (PInt z, s')
  | Choice vs => sample_from_values vs s
  end.
Definition sample_leaf (l : leaf) (s : S) : result (pyval * S) :=
  match lf_dist l with
  | None => sample_from_values (match lf_values l with Some vs => vs | None => [] end) s
  | Some d => sample_distribution d s
  end.
Fixpoint sample_leaves (ls : list leaf) (d : pydict) (s : S) : result (pydict * S) :=
  match ls with
  | [] => Ok (d, s)
  | l :: r => do ' (v, s1) <- sample_leaf l s; do d' <- assign d (lf_path l) v; sample_leaves r d' s1
  end.
Fixpoint random_trials (ls : list leaf) (i : Z) (n : nat) (s : S) : result (list trial) :=
  match n with
  | O => Ok []
  | Datatypes.S m =>
      do ' (p, s1) <- sample_leaves ls [] s;
      do t <- random_trials ls (i + 1) m s1;
      Ok ({| t_index := i; t_patch := p; t_params := flatten_patch p |} :: t)
  end.
(* seed: the state default_rng(seed) starts in.  The Python generator yields trials one by one; here all
   are produced, so a failure in a late trial is an error. *)
Definition iter_random (ls : list leaf) (seed : S) (n_trials : Z) : result (list trial) :=
  if n_trials <=? 0 then Err HpoError else random_trials ls 0 (Z.to_nat n_trials) seed.
End Random.
End Sorted.
Arguments r_int {S}. Arguments r_uniform {S}. Arguments m_log {S}. Arguments m_exp {S}.

(* ------------------------------------------------ bench/orchestrators/hpo.py:92-143, 251-265 *)
(* an aggregated objective value; the integers stand for finite floats, of which only the order matters *)
Inductive score := Nan | MinusInf | Fin (z : Z) | PlusInf.
Definition score_lt (a b : score) : bool :=
  match a, b with
  | Nan, _ | _, Nan => false
  | MinusInf, MinusInf => false | MinusInf, _ => true
  | Fin _, MinusInf => false | Fin x, Fin y => x <? y | Fin _, PlusInf => true
  | PlusInf, _ => false
  end.
Definition score_eq (a b : score) : bool :=
  match a, b with
  | MinusInf, MinusInf | PlusInf, PlusInf => true
  | Fin x, Fin y => x =? y
  | _, _ => false
  end.
(* hpo.py:119-121 *)
Definition cmp_score (maximize : bool) (s : score) : score :=
  match s with Nan => if maximize then MinusInf else PlusInf | _ => s end.
(* hpo.py:251-265 _is_better *)
Definition is_better (maximize : bool) (candidate : score) (index : Z) (best : option (score * Z)) : bool :=
  match best with
  | None => true
  | Some (b, bi) => if score_eq candidate b then index <? bi
                    else if maximize then score_lt b candidate else score_lt candidate b
  end.
(* hpo.py:97-134: the loop, on (trial index, aggregated score) *)
Fixpoint search (maximize : bool) (l : list (Z * score)) (best : option (score * Z)) : option (score * Z) :=
  match l with
  | [] => best
  | (i, s) :: r =>
      let c := cmp_score maximize s in
      search maximize r (if is_better maximize c i best then Some (c, i) else best)
  end.
(* hpo.py:158-159: no trial is an error *)
Definition best_trial (maximize : bool) (l : list (Z * score)) : result Z :=
  match search maximize l None with Some (_, i) => Ok i | None => Err ValueError end.
