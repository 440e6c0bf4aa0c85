(* Vocabulary for the preprocessing steps of StepModel. *)
From Coq Require Import String QArith.
From Verif Require Import Prelude TokSpec.
Local Open Scope Z_scope.
Local Open Scope list_scope.
Local Notation length := List.length.

(* the labelled classes in ascending order *)
Definition labelled_classes_of (unlabeled : Z) (y : list Z) (classes : list Z) : Prop :=
  StronglySorted Z.lt classes /\ forall c, In c classes <-> In c y /\ c <> unlabeled.

(* every row of a table has width d *)
Definition rectangular {A} (d : nat) (rows : list (list A)) : Prop := forall r, In r rows -> length r = d.

(* the positions kept by a selection: increasing, below n *)
Definition selection (kept : list nat) (n : nat) : Prop :=
  StronglySorted lt kept /\ forall k, In k kept -> (k < n)%nat.
(* l' lists the entries of l at the kept positions *)
Definition picks {A} (kept : list nat) (l l' : list A) : Prop :=
  Forall2 (fun k x => nth_error l k = Some x) kept l'.

(* the edges of an array of shape (2, E) and of an array of shape (E, 2) *)
Definition edges_2E (ei : list (list Z)) (es : list (Z * Z)) : Prop :=
  exists src dst, ei = [src; dst] /\ length src = length dst /\ es = combine src dst.
Definition edges_E2 (ei : list (list Z)) (es : list (Z * Z)) : Prop :=
  ei = map (fun e => [fst e; snd e]) es.
