(* What the weak and strong views are supposed to be. *)
From Coq Require Import String.
From Verif Require Import Prelude PyValue BaugModel.
Local Open Scope string_scope.
Local Open Scope Z_scope.
Local Open Scope list_scope.
Local Notation length := List.length.

(* ---- plans: a mapping with at most "steps" (a list, by default empty) and "modality"; a step is a mapping with at most "id",
   "op_id" and "params"; its name is the first of id and op_id that is not empty, and both agree if both are given *)
Definition only_keys (d : pydict) (ks : list string) : Prop := forall k v, In (k, v) d -> In k ks.
Definition truthy (v : option pyval) : Prop := match v with Some x => py_bool x = true | None => False end.
Definition step_means (o : Oracle) (item : pyval) (op : string) (ps : pydict) : Prop :=
  exists d, item = PDict d /\ only_keys d ["id"; "op_id"; "params"] /\
    (forall a b, lookup d "id" = Some a -> lookup d "op_id" = Some b -> py_str o a = py_str o b) /\
    op <> "" /\
    (exists x, op = py_str o x /\ py_bool x = true /\ (lookup d "id" = Some x \/ (~ truthy (lookup d "id") /\ lookup d "op_id" = Some x))) /\
    (lookup d "params" = Some (PDict ps) \/ (ps = [] /\ ~ truthy (lookup d "params"))).
Definition plan_means (o : Oracle) (obj : pyval) (steps : list (string * pydict)) : Prop :=
  exists d items, obj = PDict d /\ only_keys d ["steps"; "modality"] /\
    (lookup d "steps" = Some (PList items) \/ (lookup d "steps" = None /\ items = [])) /\
    Forall2 (fun it s => step_means o it (fst s) (snd s)) items steps.

Section Views.
Context {X D A : Type}.
Variable cast : D -> A -> A.
Variable promote : list D -> D.
Notation arr := (arr D A).
(* what a pipeline makes of the samples, one by one, each with its own number and the same seed *)
Definition drawn (p : pipeline X D A) (seed : Z) (m : option string) (xs : list X) (ids : list Z) (raw : list arr) : Prop :=
  length raw = length xs /\ (length xs <= length ids)%nat /\
  forall i x id, nth_error xs i = Some x -> nth_error ids i = Some id -> exists v, nth_error raw i = Some v /\ p x {| ac_seed := seed; ac_sample := id; ac_modality := m |} = Ok v.
Definition agree (l : list arr) : Prop := forall x y, In x l -> In y l -> a_shape _ _ x = a_shape _ _ y.
(* the rows of one array: the same data in one element type *)
Definition in_type (d : D) (raw rows : list arr) : Prop :=
  Forall2 (fun r v => a_kind _ _ v = a_kind _ _ r /\ a_shape _ _ v = a_shape _ _ r /\ a_dtype _ _ v = d /\ a_data _ _ v = cast d (a_data _ _ r)) raw rows.
(* the results of the first sample are all numpy arrays or all tensors *)
Definition allocated (firsts : list arr) : Prop := exists k, k <> KOther /\ forall x, In x firsts -> a_kind _ _ x = k.
Definition row_type (alloc : Prop) (raw : list arr) (d : D) : Prop :=
  (alloc -> exists x r, raw = x :: r /\ d = a_dtype _ _ x) /\ (~ alloc -> d = promote (map (a_dtype D A) raw)).
(* one of the arrays that are returned *)
Definition rows_of (p : pipeline X D A) (seed : Z) (m : option string) (xs : list X) (ids : list Z) (alloc : Prop) (raw rows : list arr) : Prop :=
  drawn p seed m xs ids raw /\ agree raw /\ exists d, row_type alloc raw d /\ in_type d raw rows.
End Views.
