(* What C170 says: where a head is, how images are read, how a network is trained. *)
From Coq Require Import QArith String Permutation.
From Verif Require Import Prelude SupervisedModel TclfModel TclfSpec IpreModel.
Local Open Scope string_scope.
Local Open Scope list_scope.
Local Notation length := List.length.

(* the layer at a place *)
Definition item (p : option part) (j : nat) : option layer := match p with Some (Group _ items) => option_map snd (nth_error items j) | _ => None end.
Definition layer_at (m : net) (p : place) : option layer :=
  match p with
  | AtFc => n_fc m
  | AtClassifier => match n_classifier m with Some (Single l) => Some l | _ => None end
  | InClassifier j => item (n_classifier m) j
  | AtHeads => match n_heads m with Some (Single l) => Some l | _ => None end
  | InHeads j => item (n_heads m) j
  | AtHead => n_head m
  end.
(* the places a head can be: any item of a sequential classifier, the first item of heads called head *)
Definition may_be_head (m : net) (p : place) : Prop :=
  match p with
  | InClassifier j => exists items, n_classifier m = Some (Group true items)
  | InHeads j => exists b items, n_heads m = Some (Group b items) /\ option_map fst (nth_error items j) = Some "head" /\ forall j', (j' < j)%nat -> option_map fst (nth_error items j') <> Some "head"
  | _ => True
  end.
Definition linear_at (m : net) (p : place) (i : nat) : Prop := exists o, layer_at m p = Some (Linear i o).

(* how images are read: their number, shape (channels, height, width) and values *)
Definition flat_shape (known : option shape) (given : option (list nat)) (s : shape) : Prop :=
  known = Some s \/ (known = None /\ let '(c, h, w) := s in given = Some [c; h; w] \/ (c = 1%nat /\ given = Some [h; w])).
Inductive reads_as {V} (layout : string) (known : option shape) (given : option (list nat)) : arr V -> nat -> shape -> (nat -> nat -> nat -> nat -> V) -> Prop :=
| reads_first n c h w f : layout = "channels_first" -> reads_as layout known given (A4 V n c h w f) n (c, h, w) f
| reads_last n c h w f : layout = "channels_last" -> reads_as layout known given (A4 V n h w c f) n (c, h, w) (fun i k u v => f i u v k)
| reads_gray n h w f : reads_as layout known given (A3 V n h w f) n (1%nat, h, w) (fun i _ u v => f i u v)
| reads_flat n c h w f : flat_shape known given (c, h, w) -> reads_as layout known given (A2 V n (c * h * w) f) n (c, h, w) (fun i k u v => f i (k * (h * w) + u * w + v)%nat).
(* what the network is shown of them: the images, or a single channel three times *)
Definition shown {V} (repeat : bool) (expected : option nat) (n : nat) (s : shape) (val : nat -> nat -> nat -> nat -> V) (p : pic V) : Prop :=
  let '(c, h, w) := s in p_n V p = n /\ p_h V p = h /\ p_w V p = w /\
  (((expected = None \/ expected = Some c) /\ p_c V p = c /\ forall i k u v, p_at V p i k u v = val i k u v) \/
   (repeat = true /\ c = 1%nat /\ expected = Some 3%nat /\ p_c V p = 3%nat /\ forall i k u v, p_at V p i k u v = val i 0%nat u v)).
Definition showable (repeat : bool) (expected : option nat) (s : shape) : Prop :=
  let '(c, _, _) := s in expected = None \/ expected = Some c \/ (repeat = true /\ c = 1%nat /\ expected = Some 3%nat).

Section Training.
Context {V B H Op G : Type}.
Variable step : bool -> bool -> list (row V * nat) -> B * H * Op * G -> B * H * Op * G.
Variable randperm : G -> nat -> list nat * G.
(* an entry of a batch: the picture of row i with the position of its label among the classes *)
Definition entry_of (p : pic V) (y classes : list Z) (i : nat) (e : row V * nat) : Prop :=
  (i < length y)%nat /\ (forall k u v, fst e k u v = p_at V p i k u v) /\ (snd e < length classes)%nat /\ nth (snd e) classes 0%Z = nth i y 0%Z.
(* steps through batches of rows: with a frozen backbone it is neither optimized nor in training mode; otherwise it is in training mode but for single rows *)
Inductive stepped (frozen : bool) (p : pic V) (y classes : list Z) : list (list nat) -> B * H * Op * G -> B * H * Op * G -> Prop :=
| stepped_end s : stepped frozen p y classes [] s s
| stepped_batch b bs E training s s' : Forall2 (entry_of p y classes) b E -> (training = true <-> frozen = false /\ length b <> 1%nat) ->
    stepped frozen p y classes bs (step (negb frozen) training E s) s' -> stepped frozen p y classes (b :: bs) s s'.
Inductive trained (frozen : bool) (size : nat) (p : pic V) (y classes : list Z) : nat -> B * H * Op * G -> B * H * Op * G -> Prop :=
| trained_end s : trained frozen size p y classes 0 s s
| trained_epoch k b h o g bs s s' : epoch_split size (length y) bs -> concat bs = fst (randperm g (length y)) ->
    stepped frozen p y classes bs (b, h, o, snd (randperm g (length y))) s -> trained frozen size p y classes k s s' -> trained frozen size p y classes (S k) (b, h, o, g) s'.
(* evaluation mode without optimization leaves a backbone (and the generator) as it is *)
Definition eval_keeps : Prop := forall E b h o g, exists h' o', step false false E (b, h, o, g) = (b, h', o', g).
End Training.
