(* Vocabulary for C177: what a command prints and how it ends. *)
From Coq Require Import String Sorted.
From Verif Require Import Prelude CldModel.
Local Open Scope string_scope.
Local Open Scope list_scope.
Local Notation length := List.length.

(* a failure the loader announces, with its message *)
Definition announced (f : failure) (m : string) : Prop := f = NoExtra m \/ f = Loader m.
(* the entries of a mapping in the order of their keys *)
Definition in_order {A} (d l : list (string * A)) : Prop := Permutation d l /\ Sorted (fun a b => String.leb (fst a) (fst b) = true) l.
(* a titled section, left out when it is empty *)
Definition section {A} (title : string) (line : string * A -> string) (d : list (string * A)) (lines : list string) : Prop :=
  (d = [] /\ lines = []) \/ (d <> [] /\ exists l, in_order d l /\ lines = ["" ; title] ++ map line l).
(* keys picked from a list, in its order *)
Inductive picked (good : string -> Prop) : list string -> list string -> Prop :=
| picked_nil : picked good [] []
| picked_yes k l r : good k -> picked good l r -> picked good (k :: l) (k :: r)
| picked_no k l r : ~ good k -> picked good l r -> picked good (k :: l) r.
