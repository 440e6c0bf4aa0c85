(* Vocabulary for resource limits and seed sweeps: what is stored at a place of a configuration, which
   places a limit governs, and what a limit does to a value. *)
From Coq Require Import String.
From Verif Require Import Prelude FloatModel PyValue DecString HpoModel LimitsModel.
Local Open Scope string_scope.
Local Open Scope Z_scope.
Local Open Scope list_scope.

(* v[p0][p1]... *)
Fixpoint value_at (v : pyval) (p : place) : option pyval :=
  match p with
  | [] => Some v
  | K k :: r => match v with
                | PDict d => match lookup d k with Some w => value_at w r | None => None end
                | _ => None
                end
  | I i :: r => match v with
                | PList l => match nth_error l i with Some w => value_at w r | None => None end
                | _ => None
                end
  end.

(* the place was left alone: the same scalar, a mapping where there was one, a list as long as before *)
Definition same (a b : option pyval) : Prop :=
  match a, b with
  | None, None => True
  | Some (PDict _), Some (PDict _) => True
  | Some (PList x), Some (PList y) => length x = length y
  | Some x, Some y => x = y
  | _, _ => False
  end.

(* the integer a setting stands for, if any: neither None nor a boolean, and int() accepts it *)
Definition stands_for (o : Oracle) (v : pyval) (z : Z) : Prop :=
  v <> PNone /\ (forall b, v <> PBool b) /\ py_int o v = Ok z.

(* a setting whose limit is c was lowered to c, or was absent and has become c *)
Definition limited (o : Oracle) (c : Z) (a b : option pyval) : Prop :=
  b = Some (PInt c) /\ (a = None \/ exists v z, a = Some v /\ stands_for o v z /\ c < z).
(* what a limit c may do to the setting a; settable: an absent setting may be created *)
Definition obeys (o : Oracle) (c : Z) (settable : bool) (a b : option pyval) : Prop :=
  (limited o c a b /\ (a = None -> settable = true)) \/
  (same a b /\ forall v z, a = Some v -> stands_for o v z -> z <= c).

(* the settings that have a limit, with the limit *)
Inductive governed (l : ResolvedLimits) : place -> Z -> bool -> Prop :=
| g_train c : rl_train_samples l = Some c ->
    governed l [K "dataset"; K "options"; K "max_train_samples"] c true
| g_test c : rl_test_samples l = Some c ->
    governed l [K "dataset"; K "options"; K "max_test_samples"] c true
| g_step c i : rl_preprocess_batch l = Some c ->
    governed l [K "preprocess"; K "plan"; K "steps"; I i; K "params"; K "batch_size"] c false
| g_view_step c j i : rl_preprocess_batch l = Some c ->
    governed l [K "views"; K "plan"; K "views"; I j; K "preprocess"; K "steps"; I i; K "params"; K "batch_size"] c false
| g_method c : rl_method_batch l = Some c ->
    governed l [K "method"; K "params"; K "batch_size"] c false
| g_method_sup c : rl_method_sup_batch l = Some c ->
    governed l [K "method"; K "params"; K "sup_batch_size"] c false
| g_classifier c : rl_method_batch l = Some c ->
    governed l [K "method"; K "params"; K "classifier_params"; K "batch_size"] c false
| g_model c : rl_method_batch l = Some c ->
    governed l [K "method"; K "model"; K "classifier_params"; K "batch_size"] c false
| g_chunk c : rl_graph_chunk l = Some c ->
    governed l [K "graph"; K "spec"; K "chunk_size"] c true.

Definition options_place : place := [K "dataset"; K "options"].
Definition is_mapping (v : option pyval) : Prop := exists d, v = Some (PDict d).

(* the line written for a change of the place P from a to c *)
Definition message (o : Oracle) (P : place) (a : option pyval) (c : Z) (t : string) : Prop :=
  exists path Q key, P = Q ++ [K key] /\
    t = (path ++ "." ++ key ++
         match a with
         | None => ": set to " ++ dec c
         | Some v => ": " ++ py_str o v ++ " -> " ++ dec c
         end)%string.

(* the value in force: what the configuration says, else what the profile says *)
Definition in_force (explicit : option Z) (from_profile : option Z) (r : option Z) : Prop :=
  match explicit with Some z => r = Some z | None => r = from_profile end.
(* the published profiles: preprocess batch, method batch, supervised batch, graph chunk *)
Definition profile_limits (p : option string) : option Z * option Z * option Z * option Z :=
  match p with
  | Some s => if String.eqb s "v100" then (Some 32, Some 128, Some 64, Some 512)
              else if String.eqb s "h100" then (Some 64, Some 512, Some 256, Some 1024)
              else (None, None, None, None)
  | None => (None, None, None, None)
  end.

(* ---- seed sweeps ---- *)
(* the places a sweep writes to *)
Definition sweep_place (raw : pydict) (p : place) : Prop :=
  p = [K "run"; K "seed"] \/ p = [K "run"; K "seeds"] \/ p = [K "run"; K "name"] \/
  exists s, In s ["sampling"; "preprocess"; "views"; "graph"; "augmentation"; "search"] /\
            is_mapping (value_at (PDict raw) [K s]) /\ p = [K s; K "seed"].

(* ---- the profile in force ---- *)
(* no profile when none or an empty one is given; "auto" asks the machine and falls back to v100 *)
Definition profile_in_force (lower : string -> string) (detected : option string) (p r : option string) : Prop :=
  match p with
  | None => r = None
  | Some s => (s = "" /\ r = None) \/
              (s <> "" /\ lower s = "auto" /\ r = match detected with Some d => Some d | None => Some "v100" end) \/
              (s <> "" /\ lower s <> "auto" /\ lower s <> "" /\ r = Some (lower s)) \/
              (s <> "" /\ lower s = "" /\ r = None)
  end.
Definition no_limit (l : ResolvedLimits) : Prop :=
  rl_preprocess_batch l = None /\ rl_method_batch l = None /\ rl_method_sup_batch l = None /\
  rl_graph_chunk l = None /\ rl_train_samples l = None /\ rl_test_samples l = None.
