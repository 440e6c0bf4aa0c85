(* Model of the pretrained audio classifier: src/modssc/supervised/backends/torch/audio_pretrained.py, with predictions of src/modssc/supervised/backends/torch/common.py.
   Waveforms are a shape with row-major rationals.  The bundle, what its model answers, new heads, optimizer steps, softmax, argmax and the generator are parameters.
   NaN, dtypes and gradients are not modelled; features whose number of rows or width does not fit raise one error. *)
From Coq Require Import QArith.
From Verif Require Import Prelude SupervisedModel TclfModel.
Local Open Scope list_scope.
Local Notation length := List.length.

Record tensor := { x_tensor : bool; x_dev : Z; x_shape : list nat; x_data : list Q }.
Record labels := { y_tensor : bool; y_dev : Z; y_data : list Z }.
Definition numel (s : list nat) : nat := fold_right Nat.mul 1%nat s.
Definition waves (n size : nat) (data : list Q) : list (list Q) := map (fun i => firstn size (skipn (i * size) data)) (seq 0 n).
(* _prepare_X (audio_pretrained.py lines 98-113) *)
Definition prepare (x : tensor) : result (list (list Q)) :=
  if negb (x_tensor x) then Err SupervisedError else
  match x_shape x with
  | [l] => Ok (waves 1 l (x_data x))
  | [n; l] => Ok (waves n l (x_data x))
  | [n; c; l] => if negb (Nat.eqb c 1) then Err SupervisedError else Ok (waves n l (x_data x))
  | _ => Err SupervisedError
  end.

(* what a model may answer: tensors of two or three dimensions with their last size, other tensors, lists, tuples, anything else *)
Inductive value := Rows (width : nat) (l : list (list Q)) | Frames (width : nat) (l : list (list (list Q))) | OtherTensor | VList (l : list value) | VTuple (l : list value) | Other.
Definition mean (width : nat) (frames : list (list Q)) : list Q := map (fun j => fold_right Qplus 0 (map (fun f => nth j f 0) frames) / inject_Z (Z.of_nat (length frames)))%Q (seq 0 width).
(* _extract_features after the call (audio_pretrained.py lines 53-65) *)
Definition features (out : value) : result (nat * list (list Q)) :=
  do feats <- match out with VTuple (v :: _) => Ok v | VTuple [] => Err IndexError | v => Ok v end;
  do feats <- match feats with VTuple (v :: l) | VList (v :: l) => Ok (last l v) | VTuple [] | VList [] => Err IndexError | v => Ok v end;
  match feats with
  | Frames w l => Ok (w, map (mean w) l)
  | Rows w l => Ok (w, l)
  | _ => Err SupervisedError
  end.

Record settings := { s_freeze : bool; s_lr : Q; s_decay : Q; s_batch : Z; s_epochs : Z; s_seed : option Z }.
Record report := { rp_samples : nat; rp_features : nat; rp_classes : nat }.
Section Fit.
Variables B H Op G : Type.                                    (* backbones, heads, optimizer states, states of the generator *)
Variable seeded : Z -> G.                                     (* torch.manual_seed *)
Variable run : bool -> list (list Q) -> B * G -> value * (B * G).  (* the backbone, in training mode or not *)
Variable new_head : nat -> nat -> G -> H * G.
Variable opt : bool -> B * H -> Op.                           (* the optimizer of the head alone, or of both *)
Variable randperm : nat -> G -> list nat * G.
Variable learn_head : list (list Q * nat) -> H * Op -> H * Op.
Variable learn : list (list Q * nat) -> list (list Q) -> B * H * Op -> B * H * Op.
Variable logits : H -> list Q -> list Q.
Variable softmax : list Q -> list Q.
Variable argmax : list Q -> nat.

(* _load_bundle and _load_bundle_model (audio_pretrained.py lines 24-44); get: get_model with or without the arguments of the download *)
Definition load (bundle : option (bool -> result B)) : result B :=
  match bundle with
  | None => Err SupervisedError
  | Some get => match get true with Ok b => Ok b | Err TypeError => get false | Err _ => Err SupervisedError end
  end.
Record object := { o_classes : option (list Z * Z); o_backbone : option B; o_head : option (H * nat) }.
Definition fits (width rows : nat) (f : nat * list (list Q)) : result (list (list Q)) := if Nat.eqb (fst f) width && Nat.eqb (length (snd f)) rows then Ok (snd f) else Err RuntimeError.
Definition state := (B * H * Op * G)%type.
(* one batch (audio_pretrained.py lines 198-209) *)
Definition batch_step (freeze : bool) (width : nat) (batch : list (list Q * nat)) (s : state) : state * result unit :=
  let '(b, h, o, g) := s in
  let '(out, (b, g)) := run (negb freeze) (map fst batch) (b, g) in
  match (do f <- features out; fits width (length batch) f) with
  | Err e => ((b, h, o, g), Err e)
  | Ok f => if freeze then let '(h, o) := learn_head (combine f (map snd batch)) (h, o) in ((b, h, o, g), Ok tt)
            else let '(b, h, o) := learn batch f (b, h, o) in ((b, h, o, g), Ok tt)
  end.
Definition batch_of (data : list (list Q * nat)) (l : list nat) : list (list Q * nat) := flat_map (fun i => match nth_error data i with Some e => [e] | None => [] end) l.
Fixpoint epoch (freeze : bool) (width : nat) (data : list (list Q * nat)) (bs : list (list nat)) (s : state) : state * result unit :=
  match bs with
  | [] => (s, Ok tt)
  | b :: bs => let '(s, r) := batch_step freeze width (batch_of data b) s in match r with Err e => (s, Err e) | Ok _ => epoch freeze width data bs s end
  end.
(* the epochs (audio_pretrained.py lines 193-209) *)
Fixpoint train (freeze : bool) (width size : nat) (data : list (list Q * nat)) (n : nat) (s : state) : state * result unit :=
  match n with
  | O => (s, Ok tt)
  | S n => let '(b, h, o, g) := s in
           let '(idx, g) := randperm (length data) g in
           let '(s, r) := epoch freeze width data (batches (length data) size idx) (b, h, o, g) in
           match r with Err e => (s, Err e) | Ok _ => train freeze width size data n s end
  end.
(* the checks before anything changes (audio_pretrained.py lines 141-160) *)
Definition checked (sp : settings) (x : tensor) (y : labels) : bool :=
  x_tensor x && y_tensor y && (0 <? s_batch sp)%Z && (0 <? s_epochs sp)%Z && negb (Qle_bool (s_lr sp) 0) && negb (Nat.eqb (numel (x_shape x)) 0) && (x_dev x =? y_dev y)%Z.
(* fit (audio_pretrained.py lines 125-217) *)
Definition fit (sp : settings) (bundle : option (bool -> result B)) (x : tensor) (y : labels) (obj : object) (g : G) : object * result report * G :=
  if negb (checked sp x y) then (obj, Err SupervisedError, g) else
  let '(codes, classes) := encode_labels (y_data y) in
  let obj := {| o_classes := Some (classes, y_dev y); o_backbone := o_backbone obj; o_head := o_head obj |} in
  let g := seeded (match s_seed sp with Some s => s | None => 0%Z end) in
  match load bundle with
  | Err e => (obj, Err e, g)
  | Ok b =>
    let obj := {| o_classes := o_classes obj; o_backbone := Some b; o_head := o_head obj |} in
    match (do rows <- prepare x; if negb (Nat.eqb (length rows) (length (y_data y))) then Err SupervisedError else Ok rows) with
    | Err e => (obj, Err e, g)
    | Ok rows =>
      let '(out, (b, g)) := run false (firstn 1 rows) (b, g) in
      let obj := {| o_classes := o_classes obj; o_backbone := Some b; o_head := o_head obj |} in
      match features out with
      | Err e => (obj, Err e, g)
      | Ok (width, _) =>
        let '(h, g) := new_head width (length classes) g in
        let obj := {| o_classes := o_classes obj; o_backbone := Some b; o_head := Some (h, width) |} in
        if negb (Qle_bool 0 (s_decay sp)) then (obj, Err ValueError, g) else
        let '((b, h, _, g), r) := train (s_freeze sp) width (Z.to_nat (s_batch sp)) (combine rows codes) (Z.to_nat (s_epochs sp)) (b, h, opt (s_freeze sp) (b, h), g) in
        ({| o_classes := o_classes obj; o_backbone := Some b; o_head := Some (h, width) |},
         match r with Err e => Err e | Ok _ => Ok {| rp_samples := length rows; rp_features := width; rp_classes := length classes |} end, g)
      end
    end
  end.
(* _scores (audio_pretrained.py lines 219-231): the scores, and the backbone afterwards *)
Definition scores (obj : object) (x : tensor) (g : G) : result (list (list Q)) * (object * G) :=
  match o_backbone obj, o_head obj, o_classes obj with
  | Some b, Some (h, width), Some (_, dev) =>
    match prepare x with
    | Err e => (Err e, (obj, g))
    | Ok rows =>
      if negb (x_dev x =? dev)%Z then (Err SupervisedError, (obj, g)) else
      let '(out, (b, g)) := run false rows (b, g) in
      (do f <- features out; do l <- fits width (length (snd f)) f; Ok (map (fun r => softmax (logits h r)) l), ({| o_classes := o_classes obj; o_backbone := Some b; o_head := o_head obj |}, g))
    end
  | _, _, _ => (Err RuntimeError, (obj, g))
  end.
(* predict (common.py lines 25-29): a position without class raises *)
Fixpoint named (classes : list Z) (l : list nat) : result (list Z) :=
  match l with [] => Ok [] | i :: l => match nth_error classes i with None => Err IndexError | Some c => do r <- named classes l; Ok (c :: r) end end.
Definition predict (obj : object) (x : tensor) (g : G) : result (list Z) :=
  do s <- fst (scores obj x g); match o_classes obj with None => Err RuntimeError | Some (classes, _) => named classes (map argmax s) end.
End Fit.
