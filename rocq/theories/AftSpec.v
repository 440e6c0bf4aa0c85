(* What C173 says: which waveforms and answers are read and how head and backbone are trained. *)
From Coq Require Import QArith Permutation.
From Verif Require Import Prelude TclfModel TclfSpec AftModel.
Local Open Scope list_scope.
Local Notation length := List.length.

(* one waveform, waveforms, or waveforms with one channel: their number and length *)
Inductive wave_shape : list nat -> nat -> nat -> Prop :=
| shape_one l : wave_shape [l] 1 l
| shape_many n l : wave_shape [n; l] n l
| shape_mono n l : wave_shape [n; 1%nat; l] n l.
Definition read_as (x : tensor) (rows : list (list Q)) : Prop :=
  x_tensor x = true /\ exists n l, wave_shape (x_shape x) n l /\ length rows = n /\
  forall i, (i < n)%nat -> exists r, nth_error rows i = Some r /\ forall j, nth_error r j = if Nat.ltb j l then nth_error (x_data x) (i * l + j) else None.
(* r holds, for each feature, the mean over the frames *)
Definition mean_of (w : nat) (frames : list (list Q)) (r : list Q) : Prop :=
  length r = w /\ forall j, (j < w)%nat -> frames <> [] -> (nth j r 0 * inject_Z (Z.of_nat (length frames)) == fold_right Qplus 0 (map (fun f => nth j f 0) frames))%Q.
Inductive tensor_rows : value -> nat -> list (list Q) -> Prop :=
| tensor_two w l : tensor_rows (Rows w l) w l
| tensor_three w l m : Forall2 (mean_of w) l m -> tensor_rows (Frames w l) w m.
(* the tensor itself, or the last one of a list *)
Inductive layer : value -> nat -> list (list Q) -> Prop :=
| layer_self v w m : tensor_rows v w m -> layer v w m
| layer_list l v w m : tensor_rows v w m -> layer (VList (l ++ [v])) w m
| layer_tuple l v w m : tensor_rows v w m -> layer (VTuple (l ++ [v])) w m.
(* the features in an answer: of a tuple its first part counts *)
Inductive answers : value -> nat -> list (list Q) -> Prop :=
| answers_tuple v l w m : layer v w m -> answers (VTuple (v :: l)) w m
| answers_other v w m : (forall l, v <> VTuple l) -> layer v w m -> answers v w m.

Section Training.
Context {B H Op G : Type}.
Variable run : bool -> list (list Q) -> B * G -> value * (B * G).
Variable randperm : nat -> G -> list nat * G.
Variable learn_head : list (list Q * nat) -> H * Op -> H * Op.
Variable learn : list (list Q * nat) -> list (list Q) -> B * H * Op -> B * H * Op.
Definition entry_of (rows : list (list Q)) (y classes : list Z) (i : nat) (e : list Q * nat) : Prop :=
  nth_error rows i = Some (fst e) /\ (snd e < length classes)%nat /\ nth (snd e) classes 0%Z = nth i y 0%Z.
Inductive stepped (freeze : bool) (width : nat) (rows : list (list Q)) (y classes : list Z) : list (list nat) -> B * H * Op * G -> B * H * Op * G -> Prop :=
| stepped_end s : stepped freeze width rows y classes [] s s
| stepped_head i bs E out f b h o g b' g' h' o' s : freeze = true -> Forall2 (entry_of rows y classes) i E -> run false (map fst E) (b, g) = (out, (b', g')) -> answers out width f -> length f = length E ->
    learn_head (combine f (map snd E)) (h, o) = (h', o') -> stepped freeze width rows y classes bs (b', h', o', g') s -> stepped freeze width rows y classes (i :: bs) (b, h, o, g) s
| stepped_both i bs E out f b h o g b' g' b2 h' o' s : freeze = false -> Forall2 (entry_of rows y classes) i E -> run true (map fst E) (b, g) = (out, (b', g')) -> answers out width f -> length f = length E ->
    learn E f (b', h, o) = (b2, h', o') -> stepped freeze width rows y classes bs (b2, h', o', g') s -> stepped freeze width rows y classes (i :: bs) (b, h, o, g) s.
Inductive trained (freeze : bool) (width size : nat) (rows : list (list Q)) (y classes : list Z) : nat -> B * H * Op * G -> B * H * Op * G -> Prop :=
| trained_end s : trained freeze width size rows y classes 0 s s
| trained_epoch n b h o g bs g' s s' : epoch_split size (length y) bs -> randperm (length y) g = (concat bs, g') ->
    stepped freeze width rows y classes bs (b, h, o, g') s -> trained freeze width size rows y classes n s s' -> trained freeze width size rows y classes (S n) (b, h, o, g) s'.
Definition permutes : Prop := forall n g, Permutation (fst (randperm n g)) (seq 0 n).
(* in evaluation mode the backbone and the generator stay as they are *)
Definition eval_keeps : Prop := forall l s, snd (run false l s) = s.
End Training.
