(* Model of the image steps of the preprocessing pipeline (src/modssc/preprocess/steps/vision/layout.py,
   channels_order.py, ensure_num_channels.py, resize.py, normalize.py, squeeze.py) and of
   src/modssc/preprocess/steps/core/ensure_2d.py.  An array is a shape and a function on indices; only
   the values at indices inside the shape mean anything.  Memory layout and number types are not
   modelled, except the conversion to uint8 at the end of resize. *)
From Coq Require Import QArith Qround.
From Verif Require Import Prelude.
Local Open Scope nat_scope.
Local Open Scope list_scope.

Record nd (V : Type) := { shape : list nat; at_ : list nat -> V }.
Arguments Build_nd {V}. Arguments shape {V}. Arguments at_ {V}.

Inductive layout := NCHW | NHWC.

Definition memN (x : nat) (l : list nat) : bool := existsb (Nat.eqb x) l.

(* src/modssc/preprocess/steps/vision/layout.py 10-22: Some NCHW stands for CHW, Some NHWC for HWC *)
Definition infer_3d (s : list nat) : option layout :=
  match s with
  | [d0; _; d2] =>
      let first := memN d0 [1; 3; 4] in
      let last := memN d2 [1; 2; 3; 4] in
      if first && negb last then Some NCHW
      else if last && negb first then Some NHWC
      else if first && last then Some NHWC
      else None
  | _ => None
  end.
(* src/modssc/preprocess/steps/vision/layout.py 25-37 *)
Definition infer_4d (s : list nat) : option layout :=
  match s with
  | [_; d1; _; d3] =>
      let first := memN d1 [1; 2; 3; 4] in
      let last := memN d3 [1; 2; 3; 4] in
      if first && negb last then Some NCHW
      else if last && negb first then Some NHWC
      else if first && last then Some NHWC
      else None
  | _ => None
  end.

(* arr[None, ...], arr[:, None, :, :] and out[0] *)
Definition new_first {V} (a : nd V) : nd V :=
  {| shape := 1 :: shape a; at_ := fun i => at_ a (skipn 1 i) |}.
Definition new_second {V} (a : nd V) : nd V :=
  {| shape := firstn 1 (shape a) ++ 1 :: skipn 1 (shape a);
     at_ := fun i => at_ a (firstn 1 i ++ skipn 2 i) |}.
Definition first_of_batch {V} (a : nd V) : nd V :=
  {| shape := skipn 1 (shape a); at_ := fun i => at_ a (0 :: i) |}.

(* src/modssc/preprocess/steps/vision/layout.py 40-61: prepare_image_array *)
Definition prepare {V} (a : nd V) : option (nd V * bool * layout) :=
  match length (shape a) with
  | 4 => match infer_4d (shape a) with Some l => Some (a, false, l) | None => None end
  | 3 => match infer_3d (shape a) with
         | Some l => Some (new_first a, true, l)
         | None => Some (new_second a, false, NCHW)
         end
  | _ => None
  end.

(* np.transpose(a, axes): axis k of the result is axis axes[k] of a *)
Fixpoint position (x : nat) (l : list nat) : nat :=
  match l with [] => 0 | y :: r => if Nat.eqb x y then 0 else S (position x r) end.
Definition transpose {V} (axes : list nat) (a : nd V) : nd V :=
  {| shape := map (fun k => nth k (shape a) 0) axes;
     at_ := fun i => at_ a (map (fun k => nth (position k axes) i 0) (seq 0 (length axes))) |}.

Definition leave {V} (single : bool) (a : nd V) : nd V := if single then first_of_batch a else a.
Definition layout_eqb (a b : layout) : bool :=
  match a, b with NCHW, NCHW | NHWC, NHWC => true | _, _ => false end.

(* src/modssc/preprocess/steps/vision/channels_order.py 17-39; order is None for a string other than
   the two layouts *)
Definition channels_order {V} (order : option layout) (a : nd V) : nd V :=
  match prepare a with
  | None => a
  | Some (a4, single, cur) =>
      match order with
      | None => a
      | Some desired =>
          leave single
            (if layout_eqb cur desired then a4
             else match desired with
                  | NCHW => transpose [0; 3; 1; 2] a4
                  | NHWC => transpose [0; 2; 3; 1] a4
                  end)
      end
  end.

(* the channel axis; src/modssc/preprocess/steps/vision/ensure_num_channels.py 25, normalize.py 26 *)
Definition channel_axis (l : layout) : nat := match l with NCHW => 1 | NHWC => 3 end.
Definition set_axis (s : list nat) (k d : nat) : list nat := firstn k s ++ d :: skipn (S k) s.

(* src/modssc/preprocess/steps/vision/ensure_num_channels.py 17-48; zero is the padding value *)
Definition ensure_num_channels {V} (zero : V) (num : Z) (a : nd V) : nd V :=
  match prepare a with
  | None => a
  | Some (a4, single, l) =>
      let ax := channel_axis l in
      let C := nth ax (shape a4) 0 in
      leave single
        (if (num =? Z.of_nat C)%Z then a4
         else if Nat.eqb C 1 && (1 <? num)%Z
         then {| shape := set_axis (shape a4) ax (C * Z.to_nat num);
                 at_ := fun i => at_ a4 (set_axis i ax (nth ax i 0 / Z.to_nat num)) |}
         else if (num <? Z.of_nat C)%Z
         then {| shape := set_axis (shape a4) ax
                            (Z.to_nat (if (num <? 0)%Z then Z.of_nat C + num else num));
                 at_ := at_ a4 |}
         else {| shape := set_axis (shape a4) ax (Z.to_nat num);
                 at_ := fun i => if Nat.ltb (nth ax i 0) C then at_ a4 i else zero |})
  end.

(* np.linspace(0, h - 1, out).astype(np.int64) is an argument: grid h out k is its entry k. *)
Section Resize.
Variable grid : nat -> nat -> nat -> nat.

(* astype(np.uint8) of a number: truncated towards zero, modulo 256 *)
Definition trunc (q : Q) : Z := (Qnum q ÷ Z.pos (Qden q))%Z.
Definition to_uint8 (q : Q) : Q := inject_Z (trunc q mod 256).

(* src/modssc/preprocess/steps/vision/resize.py 13-20: linspace refuses a negative length
   (ValueError) and indexing an empty axis raises IndexError *)
Definition resize_nhwc (a : nd Q) (out_h out_w : Z) : result (nd Q) :=
  let h := nth 1 (shape a) 0 in
  let w := nth 2 (shape a) 0 in
  if (Z.of_nat h =? out_h)%Z && (Z.of_nat w =? out_w)%Z then Ok a
  else if (out_h <? 0)%Z || (out_w <? 0)%Z then Err ValueError
  else if (Nat.eqb h 0 && (0 <? out_h)%Z) || (Nat.eqb w 0 && (0 <? out_w)%Z) then Err IndexError
  else Ok {| shape := set_axis (set_axis (shape a) 1 (Z.to_nat out_h)) 2 (Z.to_nat out_w);
             at_ := fun i => at_ a (set_axis (set_axis i 1 (grid h (Z.to_nat out_h) (nth 1 i 0)))
                                             2 (grid w (Z.to_nat out_w) (nth 2 i 0))) |}.
(* src/modssc/preprocess/steps/vision/resize.py 28-44 *)
Definition resize (height width : Z) (a : nd Q) : result (nd Q) :=
  match prepare a with
  | None => Ok a
  | Some (a4, single, l) =>
      let nhwc := match l with NCHW => transpose [0; 2; 3; 1] a4 | NHWC => a4 end in
      do out <- resize_nhwc nhwc height width;
      let back := match l with NCHW => transpose [0; 3; 1; 2] out | NHWC => out end in
      let fin := leave single back in
      Ok {| shape := shape fin; at_ := fun i => to_uint8 (at_ fin i) |}
  end.
End Resize.

(* src/modssc/preprocess/steps/vision/normalize.py 18-40: the channel axis of the array is broadcast
   against the means; std must have as many entries as mean (reshape raises ValueError) *)
Definition normalize (mean std : list Q) (a : nd Q) : result (nd Q) :=
  match prepare a with
  | None => Ok a
  | Some (a4, single, l) =>
      let ax := channel_axis l in
      let C := nth ax (shape a4) 0 in
      let m := length mean in
      if negb (Nat.eqb (length std) m) then Err ValueError
      else if negb (Nat.eqb C m || Nat.eqb C 1 || Nat.eqb m 1) then Err ValueError
      else
        let pick k := if Nat.eqb m 1 then 0 else k in
        Ok (leave single
              {| shape := set_axis (shape a4) ax (if Nat.eqb C 1 then m else C);
                 at_ := fun i =>
                   let k := nth ax i 0 in
                   ((at_ a4 (if Nat.eqb C 1 then set_axis i ax 0 else i) - nth (pick k) mean 0) / nth (pick k) std 0)%Q |})
  end.

(* src/modssc/preprocess/steps/vision/squeeze.py 17-28 (as_list only splits the result by rows); a dim
   outside [-4, 4) raises IndexError *)
Definition squeeze {V} (dim : Z) (a : nd V) : result (nd V) :=
  if Nat.eqb (length (shape a)) 4 then
    if (dim <? -4)%Z || (3 <? dim)%Z then Err IndexError
    else
      let ax := Z.to_nat (if (dim <? 0)%Z then dim + 4 else dim)%Z in
      if Nat.eqb (nth ax (shape a) 0) 1
      then Ok {| shape := firstn ax (shape a) ++ skipn (S ax) (shape a);
                 at_ := fun i => at_ a (firstn ax i ++ 0 :: skipn ax i) |}
      else Ok a
  else Ok a.

(* src/modssc/preprocess/steps/core/ensure_2d.py 17-33: the first array present, features.X before
   raw.X, although raw.X must be present (store.require is evaluated first); rows are flattened in C
   order, numpy refuses to infer the width of an empty batch (ValueError), and an object array is
   refused. *)
Fixpoint unravel (s : list nat) (k : nat) : list nat :=
  match s with
  | [] => []
  | d :: r => (k / fold_right Nat.mul 1 r) :: unravel r (k mod fold_right Nat.mul 1 r)
  end.
Definition ensure_2d {V} (features raw : option (nd V)) (object_dtype : bool) : result (nd V) :=
  match raw with
  | None => Err KeyError
  | Some r =>
      let x := match features with Some f => f | None => r end in
      match shape x with
      | [] => Err PreprocessError
      | [n] => if object_dtype then Err PreprocessError
               else Ok {| shape := [n; 1]; at_ := fun i => at_ x (firstn 1 i) |}
      | [n; d] => if object_dtype then Err PreprocessError else Ok x
      | n :: rest =>
          if Nat.eqb n 0 then Err ValueError
          else if object_dtype then Err PreprocessError
          else Ok {| shape := [n; fold_right Nat.mul 1 rest];
                     at_ := fun i => at_ x (firstn 1 i ++ unravel rest (nth 1 i 0)) |}
      end
  end.
