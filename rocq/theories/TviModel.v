(* Model of the torchvision image encoder (src/modssc/preprocess/models_backends/torchvision_image.py).  The network in evaluation mode gives each image of a
   batch its features on its own: an arbitrary function of the image.  Loading the model, its head and the devices are not modelled. *)
From Coq Require Import QArith.
From Verif Require Import Prelude.
Local Open Scope Z_scope.
Local Open Scope list_scope.
Local Notation length := List.length.

(* arrays with two, three or four dimensions, and others by their number of dimensions *)
Inductive array := A2 (h w : nat) (f : nat -> nat -> Q) | A3 (a b c : nat) (f : nat -> nat -> nat -> Q) | A4 (n a b c : nat) (f : nat -> nat -> nat -> nat -> Q) | AOther (dims : nat).
(* channels, height, width and pixels *)
Record tensor := { t_c : nat; t_h : nat; t_w : nat; t_at : nat -> nat -> nat -> Q }.
Definition channels (n : nat) : bool := Nat.eqb n 1 || Nat.eqb n 3 || Nat.eqb n 4.
(* _to_nchw (torchvision_image.py lines 37-51) *)
Definition to_nchw (x : array) : result tensor :=
  match x with
  | A2 h w f => Ok {| t_c := 1; t_h := h; t_w := w; t_at := fun _ i j => f i j |}
  | A3 a b c f =>
    if channels a && negb (channels c) then Ok {| t_c := a; t_h := b; t_w := c; t_at := f |}
    else if channels c then Ok {| t_c := c; t_h := a; t_w := b; t_at := fun k i j => f i j k |}
    else Err PreprocessError
  | _ => Err PreprocessError
  end.
(* _is_single_image_3d (torchvision_image.py lines 54-59) *)
Definition is_single (a c : nat) : bool := if channels a && negb (channels c) then true else channels c.
(* _split_samples (torchvision_image.py lines 124-135) *)
Definition split_samples (x : array) : list array :=
  match x with
  | A4 n a b c f => map (fun i => A3 a b c (f i)) (seq 0 n)
  | A3 a b c f => if is_single a c then [x] else map (fun i => A2 b c (f i)) (seq 0 a)
  | _ => [x]
  end.

Section Encoder.
Variable expected : option nat.              (* the channels the model expects, if known *)
Variable repeat_channel : bool.              (* auto_channel_repeat *)
Variable features : tensor -> list Q.        (* the penultimate features of an image *)
(* one image of _prepare_batch (torchvision_image.py lines 83-95) *)
Definition prepare (x : array) : result tensor :=
  do t <- to_nchw x;
  match expected with
  | Some e => if Nat.eqb (t_c t) e then Ok t
              else if repeat_channel && Nat.eqb (t_c t) 1 && Nat.eqb e 3 then Ok {| t_c := 3; t_h := t_h t; t_w := t_w t; t_at := fun _ i j => t_at t 0%nat i j |}
              else Err PreprocessError
  | None => Ok t
  end.
Fixpoint prepare_all (l : list array) : result (list tensor) := match l with [] => Ok [] | x :: r => do t <- prepare x; do ts <- prepare_all r; Ok (t :: ts) end.
Definition same_size (a b : tensor) : bool := Nat.eqb (t_c a) (t_c b) && Nat.eqb (t_h a) (t_h b) && Nat.eqb (t_w a) (t_w b).
(* _prepare_batch with torch.stack, and _encode_batch (torchvision_image.py lines 79-122) *)
Definition encode_batch (l : list array) : result (list (list Q)) :=
  do ts <- prepare_all l;
  if match ts with [] => true | t :: r => forallb (same_size t) r end then Ok (map features ts) else Err RuntimeError.
Fixpoint encode_batches (fuel bs : nat) (l : list array) : result (list (list Q)) :=
  match fuel with
  | O => Ok []
  | S k => match l with [] => Ok [] | _ => do a <- encode_batch (firstn bs l); do b <- encode_batches k bs (skipn bs l); Ok (a ++ b) end
  end.
(* encode of a list (torchvision_image.py lines 146-158): range fails for a step of zero, concatenate for no batches *)
Definition encode_list (bs : Z) (l : list array) : result (list (list Q)) :=
  match l with [] => Ok [] | _ => if bs <=? 0 then Err ValueError else encode_batches (length l) (Z.to_nat bs) l end.
(* encode of an array (torchvision_image.py lines 141-142) *)
Definition encode_array (bs : Z) (x : array) : result (list (list Q)) := encode_list bs (split_samples x).
End Encoder.
