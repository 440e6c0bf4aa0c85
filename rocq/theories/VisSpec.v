(* Vocabulary for the image steps: which images an array holds. *)
From Coq Require Import QArith.
From Verif Require Import Prelude VisModel.
Local Open Scope nat_scope.
Local Open Scope list_scope.

(* the index of channel k of the pixel (y, x) of image i in a batch stored in a layout *)
Definition index (L : layout) (i y x k : nat) : list nat :=
  match L with NCHW => [i; k; y; x] | NHWC => [i; y; x; k] end.

(* the three kinds of arrays the steps accept: a batch of images, one image, a batch of grey images
   without a channel axis *)
Inductive form := Batch | Single | Grey.

(* the array a of the given form holds n images of h times w pixels and c channels, px being their
   values *)
Definition holds {V} (f : form) (L : layout) (a : nd V) (n h w c : nat) (px : nat -> nat -> nat -> nat -> V) : Prop :=
  match f with
  | Batch => shape a = index L n h w c /\
      forall i y x k, i < n -> y < h -> x < w -> k < c -> at_ a (index L i y x k) = px i y x k
  | Single => n = 1 /\ shape a = skipn 1 (index L 1 h w c) /\
      forall y x k, y < h -> x < w -> k < c -> at_ a (skipn 1 (index L 0 y x k)) = px 0 y x k
  | Grey => c = 1 /\ L = NCHW /\ shape a = [n; h; w] /\
      forall i y x, i < n -> y < h -> x < w -> at_ a [i; y; x] = px i y x 0
  end.

(* the steps recognise the images: 1 to 4 channels; in the channels-first layout a width above 4 (or
   0), and for one image not 2 channels; a grey batch also of a number of images other than 1, 3, 4 *)
Definition recognisable (f : form) (L : layout) (n w c : nat) : Prop :=
  match f with
  | Batch => 1 <= c <= 4 /\ (L = NCHW -> ~ 1 <= w <= 4)
  | Single => 1 <= c <= 4 /\ (L = NCHW -> ~ 1 <= w <= 4 /\ c <> 2)
  | Grey => ~ 1 <= w <= 4 /\ n <> 1 /\ n <> 3 /\ n <> 4
  end.

(* grey batches come back with a channel axis *)
Definition after (f : form) : form := match f with Grey => Batch | _ => f end.

(* an index inside a shape *)
Definition inside (i s : list nat) : Prop := Forall2 lt i s.
(* the number of cells of a shape *)
Definition cells (s : list nat) : nat := fold_right Nat.mul 1 s.
(* the place of an index among the cells of a shape, the last axis moving fastest *)
Fixpoint row_major (i s : list nat) : nat :=
  match i, s with
  | k :: i', _ :: r => k * cells r + row_major i' r
  | _, _ => 0
  end.
