(* Model of src/modssc/preprocess: services/pipeline.py (resolve_plan, preprocess with its step cache and its purging
   of artifacts) and store.py.  What the steps compute is left to an arbitrary semantics. *)
From Coq Require Import String.
From Verif Require Import Prelude.
Local Open Scope Z_scope.
Local Open Scope list_scope.

(* ---- store.py: ArtifactStore, an insertion-ordered dictionary *)
Section Dict.
Context {V : Type}.
Definition dict := list (string * V).
Fixpoint get (d : dict) (k : string) : option V :=
  match d with [] => None | (a, v) :: r => if String.eqb a k then Some v else get r k end.
Definition has (d : dict) (k : string) : bool := match get d k with Some _ => true | None => false end.
Fixpoint set (d : dict) (k : string) (v : V) : dict :=
  match d with [] => [(k, v)] | (a, w) :: r => if String.eqb a k then (a, v) :: r else (a, w) :: set r k v end.
(* for k, v in produced.items(): store.set(k, v) *)
Definition set_all (d : dict) (new : dict) : dict := fold_left (fun d e => set d (fst e) (snd e)) new d.
(* pipeline.py:339-343 _purge_store *)
Definition memK (k : string) (l : list string) : bool := existsb (String.eqb k) l.
Definition purge (d : dict) (keep : list string) : dict := filter (fun e => memK (fst e) keep) d.
End Dict.
Arguments dict : clear implicits.

(* ---- types.py StepSpec, plan.py StepConfig *)
Record spec := { sp_fittable : bool; sp_modalities : list string; sp_consumes : list string; sp_produces : list string }.
Record config (Pm : Type) := {
  c_id : string; c_params : Pm; c_modalities : list string; c_requires : list string; c_enabled : bool
}.
Arguments c_id {Pm}. Arguments c_params {Pm}. Arguments c_modalities {Pm}. Arguments c_requires {Pm}. Arguments c_enabled {Pm}.
Record step (Pm : Type) := { r_id : string; r_params : Pm; r_index : Z; r_spec : spec }.
Arguments r_id {Pm}. Arguments r_params {Pm}. Arguments r_index {Pm}. Arguments r_spec {Pm}.

(* pipeline.py:27-30 *)
Definition implicit_consumes (id : string) : list string :=
  if String.eqb id "graph.node2vec" then ["raw.X"; "raw.y"]%string
  else if String.eqb id "graph.dgi" then ["raw.X"]%string else [].

Section Resolve.
Context {Pm : Type}.
Variable registry : string -> option spec.
Variable modality : string.
(* pipeline.py:363-398, the steps kept, in order; fields grows with the declared products *)
Fixpoint resolve (i : Z) (fields : list string) (l : list (config Pm)) : result (list (step Pm)) :=
  match l with
  | [] => Ok []
  | c :: r =>
      if negb (c_enabled c) then resolve (i + 1) fields r
      else match registry (c_id c) with
      | None => Err PreprocessError
      | Some sp =>
          let allowed := match c_modalities c with [] => sp_modalities sp | m => m end in
          if negb (Nat.eqb (List.length allowed) 0) && negb (String.eqb modality "") && negb (memK modality allowed)
          then resolve (i + 1) fields r
          else if existsb (fun k => negb (memK k fields)) (c_requires c) then resolve (i + 1) fields r
          else do rest <- resolve (i + 1) (fields ++ sp_produces sp) r;
               Ok ({| r_id := c_id c; r_params := c_params c; r_index := i; r_spec := sp |} :: rest)
      end
  end.
End Resolve.

Section Pipeline.
(* artifact values, parameters, generator states, fitted step objects, dataset fingerprints *)
Context {V Pm R S DFp : Type}.

(* ---- datasets *)
Record split := { s_X : V; s_y : V; s_edges : option V; s_masks : list (string * V) }.
Record dataset := { d_train : split; d_test : option split }.
(* pipeline.py:294-304 _initial_store *)
Definition initial (s : split) : dict V :=
  let d := [("raw.X", s_X s); ("raw.y", s_y s)]%string in
  let d := match s_edges s with Some e => set d "graph.edge_index" e | None => d end in
  fold_left (fun d e => set d (String.append "graph.mask." (fst e)) (snd e)) (s_masks s) d.

(* ---- fingerprints, as the data that is hashed (C45: the encoding is injective; collisions of SHA-256 are ignored) *)
Inductive key :=
| Raw (data : DFp) (name : string)                         (* f"{dataset_fp}:{k}", pipeline.py:500-501 *)
| Step (data : DFp) (id : string) (index : Z) (params : Pm) (fittable : bool) (seed : Z) (fit : option (list Z))
       (inputs_train inputs_test : list (string * key)).   (* pipeline.py:519-541 *)

(* ---- what steps compute *)
Record semantics := {
  fresh : string -> Pm -> result S;                                       (* reg.instantiate *)
  fit : string -> Pm -> S -> dict V -> list Z -> R -> result (S * R);     (* step_obj.fit(train_store, fit_indices, rng) *)
  transform : string -> Pm -> S -> dict V -> R -> result (dict V * R);    (* step_obj.transform(store, rng) *)
  rng_of : Z -> R;                                                        (* np.random.default_rng(derived) *)
  derive : Z -> string -> Z -> Z                                          (* derive_seed(seed, step_id, step_index) *)
}.
Variable sem : semantics.

(* the stores and the provenance of their artifacts *)
Record state := { st_train : dict V; st_test : option (dict V); p_train : list (string * key); p_test : list (string * key) }.
Definition inputs (names : list string) (prov : list (string * key)) : list (string * key) :=
  flat_map (fun k => match get prov k with Some f => [(k, f)] | None => [] end) names.
(* pipeline.py:519-541 the fingerprint of a step.  [if test_store]: an empty store counts as none. *)
Definition step_key (dfp : DFp) (seed : Z) (fit_indices : option (list Z)) (st : state) (s : step Pm) : key :=
  Step dfp (r_id s) (r_index s) (r_params s) (sp_fittable (r_spec s)) (derive sem seed (r_id s) (r_index s))
    (if sp_fittable (r_spec s) then fit_indices else None)
    (inputs (sp_consumes (r_spec s)) (p_train st))
    (match st_test st with Some (_ :: _) => inputs (sp_consumes (r_spec s)) (p_test st) | _ => [] end).
(* pipeline.py:543-556 instantiate and fit *)
Definition prepare (seed : Z) (fit_indices : option (list Z)) (train : dict V) (s : step Pm) : result (S * R) :=
  let r := rng_of sem (derive sem seed (r_id s) (r_index s)) in
  do o <- fresh sem (r_id s) (r_params s);
  if sp_fittable (r_spec s)
  then match fit_indices with
       | None => Err PreprocessError
       | Some idx => fit sem (r_id s) (r_params s) o train idx r
       end
  else Ok (o, r).
Definition record (prov : list (string * key)) (outs : dict V) (f : key) : list (string * key) :=
  fold_left (fun p e => set p (fst e) f) outs prov.
Definition advance (st : state) (f : key) (train_outs : dict V) (test_outs : option (dict V)) : state :=
  {| st_train := set_all (st_train st) train_outs;
     st_test := match st_test st, test_outs with Some t, Some o => Some (set_all t o) | t, _ => t end;
     p_train := record (p_train st) train_outs f;
     p_test := match test_outs with Some o => record (p_test st) o f | None => p_test st end |}.
(* pipeline.py:504-647 one step, without a cache *)
Definition plain_step (dfp : DFp) (seed : Z) (fit_indices : option (list Z)) (st : state) (s : step Pm) : result state :=
  do ' (o, r) <- prepare seed fit_indices (st_train st) s;
  do ' (tr, r1) <- transform sem (r_id s) (r_params s) o (st_train st) r;
  do te <- match st_test st with
           | None => Ok None
           | Some t => do ' (x, _) <- transform sem (r_id s) (r_params s) o t r1; Ok (Some x)
           end;
  Ok (advance st (step_key dfp seed fit_indices st s) tr te).

(* ---- purging, pipeline.py:307-336 *)
Definition produced (steps : list (step Pm)) : list string := flat_map (fun s => sp_produces (r_spec s)) steps.
Definition final_keep (steps : list (step Pm)) (output_key : string) (initial_keys : list string) : list string :=
  let p := produced steps in
  output_key ::
  (if String.eqb output_key "raw.X" || negb (memK output_key initial_keys) && negb (memK output_key p) then ["raw.X"%string] else [])
  ++ (if memK "labels.y" p then ["labels.y"%string] else ["raw.y"%string])
  ++ (if memK "graph.edge_weight" p then ["graph.edge_weight"; "graph.edge_index"]%string
      else if memK "graph.edge_index" p then ["graph.edge_index"%string] else []).
(* what is needed before these steps are run *)
Fixpoint required (final : list string) (steps : list (step Pm)) : list string :=
  match steps with
  | [] => final
  | s :: r => required final r ++ sp_consumes (r_spec s) ++ implicit_consumes (r_id s)
  end.
(* the keep set of each step: what is needed after it *)
Fixpoint keep_sets (final : list string) (steps : list (step Pm)) : list (list string) :=
  match steps with [] => [] | s :: r => required final r :: keep_sets final r end.
Definition purge_state (st : state) (keep : list string) : state :=
  {| st_train := purge (st_train st) keep; st_test := option_map (fun t => purge t keep) (st_test st); p_train := p_train st; p_test := p_test st |}.

(* ---- the loop *)
Fixpoint run (dfp : DFp) (seed : Z) (fit_indices : option (list Z)) (keeps : option (list (list string))) (st : state) (l : list (step Pm)) : result state :=
  match l with
  | [] => Ok st
  | s :: r =>
      do st1 <- plain_step dfp seed fit_indices st s;
      match keeps with
      | None => run dfp seed fit_indices None st1 r
      | Some ks => run dfp seed fit_indices (Some (tl ks)) (purge_state st1 (hd [] ks)) r
      end
  end.
(* pipeline.py:675-698 the dataset returned.  The default of store.get is evaluated first. *)
Inductive edges := Unweighted (e : option V) | Weighted (index : option V) (weight : V).
Record out_split := { o_X : V; o_y : V; o_edges : edges; o_masks : list (string * V) }.
Definition require (d : dict V) (k : string) : result V := match get d k with Some v => Ok v | None => Err KeyError end.
Definition get_or (d : dict V) (k : string) (dflt : V) : V := match get d k with Some v => v | None => dflt end.
Definition finish_split (output_key : string) (s : split) (d : dict V) : result out_split :=
  do rx <- require d "raw.X";
  do ry <- require d "raw.y";
  Ok {| o_X := get_or d output_key rx; o_y := get_or d "labels.y" ry;
        o_edges := match get d "graph.edge_weight" with
                   | Some w => Weighted (get d "graph.edge_index") w
                   | None => Unweighted (match get d "graph.edge_index" with Some e => Some e | None => s_edges s end)
                   end;
        o_masks := s_masks s |}.
Definition finish (output_key : string) (ds : dataset) (st : state) : result (out_split * option out_split) :=
  do tr <- finish_split output_key (d_train ds) (st_train st);
  do te <- match d_test ds, st_test st with
           | Some s, Some t => do o <- finish_split output_key s t; Ok (Some o)
           | _, _ => Ok None
           end;
  Ok (tr, te).
Definition start (dfp : DFp) (ds : dataset) : state :=
  let prov (d : dict V) := map (fun e => (fst e, Raw dfp (fst e))) d in
  {| st_train := initial (d_train ds); st_test := option_map initial (d_test ds);
     p_train := prov (initial (d_train ds));
     p_test := match d_test ds with Some t => prov (initial t) | None => [] end |}.
(* pipeline.py:413-730 preprocess on resolved steps, without a cache *)
Definition preprocess (dfp : DFp) (ds : dataset) (steps : list (step Pm)) (output_key : string) (seed : Z)
    (fit_indices : option (list Z)) (purging : bool) : result (out_split * option out_split) :=
  let keeps := if purging then Some (keep_sets (final_keep steps output_key (map fst (initial (d_train ds)))) steps) else None in
  do st <- run dfp seed fit_indices keeps (start dfp ds) steps;
  finish output_key ds st.

(* ---- the step cache.  An entry is found when its key (and the split's name) is the same; values come back as
   they were saved, except that what cannot be saved is not (cache.py:80-155): [saved] is that subset. *)
Variable key_eqb : key -> key -> bool.
Variable saved : dict V -> dict V.
Definition cache := list (key * bool * dict V).      (* true: train *)
Definition cached (c : cache) (f : key) (train : bool) : option (dict V) :=
  match find (fun e => key_eqb (fst (fst e)) f && Bool.eqb (snd (fst e)) train) c with Some e => Some (snd e) | None => None end.
Definition complete (o : dict V) (produces : list string) : bool := forallb (has o) produces.
Definition hit (c : cache) (f : key) (train : bool) (produces : list string) : option (dict V) :=
  match cached c f train with Some o => if complete o produces then Some o else None | None => None end.
(* the new entry shadows an incomplete older one *)
Definition store (c : cache) (f : key) (train : bool) (o : dict V) : cache := (f, train, saved o) :: c.
(* one split: from the cache, or computed and saved; the generator moves only when it is used *)
Definition outputs (c : cache) (f : key) (train : bool) (s : step Pm) (o : S) (d : dict V) (r : R) : cache * result (dict V * R) :=
  match hit c f train (sp_produces (r_spec s)) with
  | Some x => (c, Ok (x, r))
  | None => match transform sem (r_id s) (r_params s) o d r with
            | Err e => (c, Err e)
            | Ok (x, r') => (store c f train x, Ok (x, r'))
            end
  end.
Definition cached_step (dfp : DFp) (seed : Z) (fit_indices : option (list Z)) (c : cache) (st : state) (s : step Pm) : cache * result state :=
  let f := step_key dfp seed fit_indices st s in
  match prepare seed fit_indices (st_train st) s with
  | Err e => (c, Err e)
  | Ok (o, r) =>
      match outputs c f true s o (st_train st) r with
      | (c1, Err e) => (c1, Err e)
      | (c1, Ok (tr, r1)) =>
          match st_test st with
          | None => (c1, Ok (advance st f tr None))
          | Some t => match outputs c1 f false s o t r1 with
                      | (c2, Err e) => (c2, Err e)
                      | (c2, Ok (te, _)) => (c2, Ok (advance st f tr (Some te)))
                      end
          end
      end
  end.
Fixpoint cached_run (dfp : DFp) (seed : Z) (fit_indices : option (list Z)) (c : cache) (st : state) (l : list (step Pm)) : cache * result state :=
  match l with
  | [] => (c, Ok st)
  | s :: r => match cached_step dfp seed fit_indices c st s with
              | (c1, Err e) => (c1, Err e)
              | (c1, Ok st1) => cached_run dfp seed fit_indices c1 st1 r
              end
  end.
Definition cached_preprocess (c : cache) (dfp : DFp) (ds : dataset) (steps : list (step Pm)) (output_key : string) (seed : Z)
    (fit_indices : option (list Z)) : cache * result (out_split * option out_split) :=
  match cached_run dfp seed fit_indices c (start dfp ds) steps with
  | (c1, Err e) => (c1, Err e)
  | (c1, Ok st) => (c1, finish output_key ds st)
  end.
End Pipeline.
Arguments split : clear implicits. Arguments dataset : clear implicits. Arguments key : clear implicits.
Arguments semantics : clear implicits. Arguments state : clear implicits. Arguments cache : clear implicits. Arguments out_split : clear implicits. Arguments edges : clear implicits.
