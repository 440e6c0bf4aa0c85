(* Vocabulary for C174: the samples of a TensorFlow data set. *)
From Coq Require Import String.
From Verif Require Import Prelude TfdModel.
Local Open Scope list_scope.
Local Notation length := List.length.

(* every item is a pair of a sample and a label, in this order *)
Definition pairs {A} (items : list (@item A)) (x y : list A) : Prop :=
  length x = length items /\ length y = length items /\ forall i, (i < length items)%nat -> exists a b, nth_error x i = Some a /\ nth_error y i = Some b /\ nth_error items i = Some (Entries [a; b]).
(* items that cannot be cut in two *)
Definition splits_in_two {A} (i : @item A) : Prop := match i with Entries l => length l = 2%nat | Features l => length l = 2%nat end.
