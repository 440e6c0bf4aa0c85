(* Vocabulary for C172: torchvision data sets. *)
From Coq Require Import String.
From Verif Require Import Prelude TvdModel.
Local Open Scope string_scope.
Local Open Scope list_scope.
Local Notation length := List.length.

Section Spec.
Context {A : Type}.
(* what two constructor calls, one after the other, give *)
Inductive built (mk : @maker A) (a b : keyword) : result (dataset * dataset) -> list keyword -> Prop :=
| built_first e : mk a = Err e -> built mk a b (Err e) [a]
| built_second d e : mk a = Ok d -> mk b = Err e -> built mk a b (Err e) [a; b]
| built_both d d' : mk a = Ok d -> mk b = Ok d' -> built mk a b (Ok (d, d')) [a; b].
(* the samples of a data set: its data and targets if it has both, else its items up to the first position that raises IndexError *)
Inductive samples (d : @dataset A) : list A -> list Z -> Prop :=
| samples_fields x y : d_data d = Some x -> d_targets d = Some y -> samples d x y
| samples_items n x y : d_data d = None \/ d_targets d = None -> length x = n -> length y = n ->
    (forall i, (i < n)%nat -> exists a z, nth_error x i = Some a /\ nth_error y i = Some z /\ d_item d i = Ok (Pair a z)) -> d_item d n = Err IndexError -> samples d x y.
(* the first position that cannot be read as a sample, with the error *)
Inductive unreadable (d : @dataset A) : nat -> exn -> Prop :=
| unreadable_item n e : d_data d = None \/ d_targets d = None -> (forall i, (i < n)%nat -> exists a z, d_item d i = Ok (Pair a z)) -> d_item d n = Err e -> e <> IndexError -> unreadable d n e
| unreadable_short n k : d_data d = None \/ d_targets d = None -> (forall i, (i < n)%nat -> exists a z, d_item d i = Ok (Pair a z)) -> d_item d n = Ok (Short k) -> unreadable d n IndexError.
End Spec.
