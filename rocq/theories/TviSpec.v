(* Vocabulary for C165: images and their layouts. *)
From Coq Require Import QArith.
From Verif Require Import Prelude TviModel.
Local Open Scope list_scope.
Local Notation length := List.length.

Definition few (n : nat) : Prop := n = 1%nat \/ n = 3%nat \/ n = 4%nat.
(* the picture an array stands for: channels, height, width, and where a pixel of a channel is found.
   The last dimension is the channels when it can be; otherwise the first one. *)
Inductive stands_for : array -> nat -> nat -> nat -> (nat -> nat -> nat -> Q) -> Prop :=
| gray h w f : stands_for (A2 h w f) 1 h w (fun _ i j => f i j)
| last_is_channels a b c f : few c -> stands_for (A3 a b c f) c a b (fun k i j => f i j k)
| first_is_channels a b c f : few a -> ~ few c -> stands_for (A3 a b c f) a b c f.
(* the model sees that picture: as it is when the channels fit, a single channel three times when three are wanted *)
Definition shown (expected : option nat) (repeat_channel : bool) (x : array) (t : tensor) : Prop :=
  exists c h w f, stands_for x c h w f /\ t_h t = h /\ t_w t = w /\
    ((t_c t = c /\ (expected = None \/ expected = Some c) /\ forall k i j, t_at t k i j = f k i j) \/
     (repeat_channel = true /\ c = 1%nat /\ expected = Some 3%nat /\ t_c t = 3%nat /\ forall k i j, t_at t k i j = f 0%nat i j)).
(* equal sizes *)
Definition alike (t u : tensor) : Prop := t_c t = t_c u /\ t_h t = t_h u /\ t_w t = t_w u.
(* the same picture in every pixel *)
Definition same_picture (t u : tensor) : Prop := alike t u /\ forall k i j, t_at t k i j = t_at u k i j.
