(* Vocabulary for C176: equal values, what a file says, places of a summary. *)
From Coq Require Import String.
From Verif Require Import Prelude PyValue MfsModel.
Local Open Scope string_scope.
Local Open Scope list_scope.
Local Notation length := List.length.

(* equal up to the order of the entries of dictionaries, at every depth *)
Inductive alike : pyval -> pyval -> Prop :=
| alike_none : alike PNone PNone
| alike_bool b : alike (PBool b) (PBool b)
| alike_int z : alike (PInt z) (PInt z)
| alike_float f : alike (PFloat f) (PFloat f)
| alike_str s : alike (PStr s) (PStr s)
| alike_list l l' : Forall2 alike l l' -> alike (PList l) (PList l')
| alike_dict d e e' : Permutation e e' -> Forall2 (fun a b => fst a = fst b /\ alike (snd a) (snd b)) d e -> alike (PDict d) (PDict e').
(* a Python value: the keys of every dictionary differ *)
Inductive real : pyval -> Prop :=
| real_none : real PNone
| real_bool b : real (PBool b)
| real_int z : real (PInt z)
| real_float f : real (PFloat f)
| real_str s : real (PStr s)
| real_list l : Forall real l -> real (PList l)
| real_dict d : NoDup (map fst d) -> Forall (fun a => real (snd a)) d -> real (PDict d).
Definition mapping (v : pyval) : Prop := exists d, v = PDict d.
(* reading what was written gives an equal mapping *)
Definition keeps {T} (dumps : pydict -> T) (loads : T -> result pyval) : Prop := forall d, real (PDict d) -> exists d', loads (dumps d) = Ok (PDict d') /\ alike (PDict d) (PDict d').
(* the entry of a mapping *)
Definition entry (d : pydict) (k : string) (v : pyval) : Prop := exists a b, d = a ++ (k, v) :: b /\ ~ In k (map fst a).
Definition no_entry (d : pydict) (k : string) : Prop := ~ In k (map fst d).
Definition entry_or_empty (d : pydict) (k : string) (v : pyval) : Prop := entry d k v \/ (no_entry d k /\ v = PDict []).
(* the value at a path of keys *)
Inductive at_path : pyval -> list string -> pyval -> Prop :=
| at_here v : at_path v [] v
| at_below d k v r w : entry d k v -> at_path v r w -> at_path (PDict d) (k :: r) w.
(* the arrays of a data set, each with its place *)
Inductive in_part (p : part) : list string -> arr -> Prop :=
| in_X a : p_X p = Some a -> in_part p ["X"] a
| in_y a : p_y p = Some a -> in_part p ["y"] a
| in_edges a : p_edges p = Some a -> in_part p ["edges"] a
| in_masks l k a : p_masks p = Some l -> NoDup (map fst l) -> In (k, Some a) l -> in_part p ["masks"; k] a.
Inductive in_data (d : data) : list string -> arr -> Prop :=
| in_train r a : in_part (d_train d) r a -> in_data d ("train" :: r) a
| in_test p r a : d_test d = Some p -> in_part p r a -> in_data d ("test" :: r) a.
