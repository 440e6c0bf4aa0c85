(* Model of the part of bench/orchestrators/method_inductive.py that BenchEvalModel.v leaves out: torch containers and conversions,
   the checks of benchmark mode, views and the second strong augmentation, and the model bundles injected into a method's
   specification; with the way src/modssc/inductive/methods/trinet.py uses the bundles made for it.  Bundles are those of
   BundleModel.v.  Not modelled: logging, the method object, the report of dtypes. *)
From Coq Require Import String QArith Qround.
From Verif Require Import Prelude BundleModel.
Local Open Scope string_scope.
Local Open Scope Z_scope.
Local Open Scope list_scope.
Local Notation length := List.length.

(* dtypes: uint8, float64, any other floating and any other integer type *)
Inductive dtype := U8 | F64 | Floating | Integer.
Record arr := { a_type : dtype; a_shape : list nat; a_vals : list Q }.
(* None, tensors with their device, arrays, dicts, sequences and other objects *)
Inductive value := VNone | VTensor (a : arr) (dev : string) | VArray (a : arr) | VDict (l : list (string * value)) | VSeq (l : list value) | VOther (o : Z).
Fixpoint get {V} (l : list (string * V)) (k : string) : option V := match l with [] => None | (a, v) :: r => if String.eqb a k then Some v else get r k end.

(* _array_backend_flags (method_inductive.py lines 34-56): has torch, has numpy *)
Fixpoint flags (v : value) : bool * bool :=
  match v with
  | VTensor _ _ => (true, false)
  | VDict l => (fix each (l : list (string * value)) : bool * bool := match l with [] => (false, false) | (_, v) :: r => let '(t, n) := flags v in let '(t', n') := each r in (t || t', n || n') end) l
  | VSeq l => (fix each (l : list value) : bool * bool := match l with [] => (false, false) | v :: r => let '(t, n) := flags v in let '(t', n') := each r in (t || t', (n || (negb t && negb n)) || n') end) l
  | VArray _ => (false, true)
  | VNone | VOther _ => (false, false)
  end.
(* _is_torch_container (method_inductive.py lines 59-65) *)
Definition is_container (v : value) : bool := match v with VTensor _ _ => true | VDict _ => let '(t, n) := flags v in t && negb n | _ => false end.

(* 255.0 as a divisor (method_inductive.py line 175) *)
Definition scaled (a : arr) : arr := {| a_type := Floating; a_shape := a_shape a; a_vals := map (fun q => q / 255)%Q (a_vals a) |}.
(* the dtype of the tensor made of an array (method_inductive.py lines 172-177); float64 becomes float32 (its rounding is left out) *)
Definition as_tensor (a : arr) : arr :=
  match a_type a with U8 => scaled a | F64 => {| a_type := Floating; a_shape := a_shape a; a_vals := a_vals a |} | _ => a end.

Section Values.
Variable asarray : value -> result arr.                           (* np.asarray of a sequence or another object *)
Definition the_device (device : option string) (d : string) : string := match device with Some d' => d' | None => d end.
(* _smart_to_torch (method_inductive.py lines 158-177) *)
Fixpoint smart (device : option string) (v : value) : result value :=
  match v with
  | VNone => Ok VNone
  | VDict l =>
    do l' <- (fix each (l : list (string * value)) : result (list (string * value)) :=
                match l with [] => Ok [] | (k, v) :: r => do v' <- smart device v; do r' <- each r; Ok ((k, v') :: r') end) l;
    Ok (VDict l')
  | VTensor a d => Ok (VTensor a (the_device device d))
  | VArray a => Ok (VTensor (as_tensor a) (the_device device "cpu"))
  | VSeq _ | VOther _ => do a <- asarray v; Ok (VTensor (as_tensor a) (the_device device "cpu"))
  end.

(* _feature_tensor (method_inductive.py lines 84-93): the tensor or array whose shape is checked *)
Definition feature_tensor (v : value) : value :=
  match v with VTensor _ _ | VArray _ => v | VDict l => match get l "x" with Some x => x | None => VNone end | _ => VNone end.
Definition floating (d : dtype) : bool := match d with F64 | Floating => true | _ => false end.
(* _validate_strict_tensor_contract (method_inductive.py lines 180-197) *)
Definition strict_tensor (v : value) : result unit :=
  match feature_tensor v with
  | VTensor a _ => if Nat.ltb (length (a_shape a)) 2 then Err BenchError else if floating (a_type a) then Ok tt else Err BenchError
  | VArray a => if Nat.ltb (length (a_shape a)) 2 then Err BenchError else Ok tt
  | _ => Ok tt
  end.
(* _len0 (method_inductive.py lines 96-107) *)
Definition len0 (v : value) : option nat :=
  let v := match v with VDict l => match get l "x" with Some x => x | None => v end | _ => v end in
  match v with VTensor a _ | VArray a => match a_shape a with n :: _ => Some n | [] => None end | _ => None end.
(* the loop of _validate_strict_inputs (method_inductive.py lines 210-225) *)
Fixpoint strict_values (requires_torch : bool) (vs : list value) : result unit :=
  match vs with
  | [] => Ok tt
  | v :: r =>
    do _ <- match v with
            | VNone => Ok tt
            | _ => if requires_torch && negb (is_container v) then Err BenchError else strict_tensor v
            end;
    strict_values requires_torch r
  end.
(* _validate_strict_inputs (method_inductive.py lines 200-233) *)
Definition strict_inputs (requires_torch : bool) (xl yl : value) (others : list value) : result unit :=
  do _ <- strict_values requires_torch (xl :: others);
  match len0 xl, len0 yl with Some n, Some m => if Nat.eqb n m then Ok tt else Err BenchError | _, _ => Ok tt end.

(* _should_auto_to_torch (method_inductive.py lines 496-507), on lower-cased names: the classifier backend of the model, and the two
   parameters when they are strings *)
Definition auto_to_torch (requires_torch : bool) (model_backend classifier_backend backend : option string) : bool :=
  if requires_torch then true
  else if match model_backend with Some b => String.eqb b "torch" | None => false end then true
  else match classifier_backend with Some b => String.eqb b "torch" | None => match backend with Some b => String.eqb b "torch" | None => false end end.
(* _torch_container_device of tensors and of dicts of tensors (method_inductive.py lines 68-81): x first, else the first found *)
Fixpoint device_of (v : value) : option string :=
  match v with
  | VTensor _ d => Some d
  | VDict l =>
    match get l "x" with
    | Some (VTensor _ d) => Some d
    | _ => (fix each (l : list (string * value)) : option string := match l with [] => None | (_, v) :: r => match device_of v with Some d => Some d | None => each r end end) l
    end
  | VSeq l => (fix each (l : list value) : option string := match l with [] => None | v :: r => match device_of v with Some d => Some d | None => each r end end) l
  | _ => None
  end.
(* the conversions of run without benchmark mode (method_inductive.py lines 567-586): labelled and unlabeled rows and the three
   augmentations *)
Record inputs := { i_l : value; i_u : value; i_w : value; i_s : value; i_s1 : value }.
Definition convert (auto : bool) (device : option string) (i : inputs) : result inputs :=
  if negb auto then Ok i
  else if is_container (i_l i) then
    let d := Some (match device_of (i_l i) with Some d => d | None => "cpu" end) in
    do w <- smart d (i_w i); do s <- smart d (i_s i); do s1 <- smart d (i_s1 i);
    Ok {| i_l := i_l i; i_u := i_u i; i_w := w; i_s := s; i_s1 := s1 |}
  else
    do l <- smart device (i_l i); do u <- smart device (i_u i);
    do w <- smart device (i_w i); do s <- smart device (i_s i); do s1 <- smart device (i_s1 i);
    Ok {| i_l := l; i_u := u; i_w := w; i_s := s; i_s1 := s1 |}.

(* _build_views (method_inductive.py lines 236-263); [select] is select_rows *)
Variable select : value -> list Z -> result value.
Fixpoint build_views (views : list (string * value)) (idx_l idx_u : list Z) (ref : value) (strict : bool) : result (list (string * (value * value))) :=
  match views with
  | [] => Ok []
  | (name, x) :: r =>
    do xl <- select x idx_l;
    do xu <- select x idx_u;
    do ' (xl, xu) <-
      (if is_container ref then
         if strict then (if negb (is_container xl) || negb (is_container xu) then Err BenchError else Ok (xl, xu))
         else do a <- smart (device_of ref) xl; do b <- smart (device_of ref) xu; Ok (a, b)
       else Ok (xl, xu));
    do r' <- build_views r idx_l idx_u ref strict;
    Ok ((name, (xl, xu)) :: r')
  end.
(* what the views entry of the dataset holds (method_inductive.py lines 602-614) *)
Inductive payload := PNone | PViews (l : list (string * (value * value))) | PSecond (s1 : value).
Definition views_payload (method : string) (views : option (list (string * value))) (idx_l idx_u : list Z) (ref : value) (strict : bool) (s1 : value) : result payload :=
  do p <- match views with None => Ok PNone | Some vs => do l <- build_views vs idx_l idx_u ref strict; Ok (PViews l) end;
  match s1 with
  | VNone => Ok p
  | _ => if String.eqb method "comatch" then Ok (PSecond s1) else match p with PNone => Ok (PSecond s1) | _ => Ok p end
  end.

(* ----- model bundles ----- *)
Context (W gen : Type) (seeded : Z -> gen) (draw : net -> gen -> W * gen) (pretrained : string -> sample -> nat -> params -> result net).
Variable factory : gen -> result (bundle W * gen).                (* the factory of the configuration, applied to its parameters *)
Record model_cfg := { c_factory : bool; c_id : option string; c_backend : option string; c_params : params; c_ema : option bool }.
(* _infer_num_classes (method_inductive.py lines 292-297): the number of distinct labels *)
Definition num_classes (y : list Z) : Z := Z.of_nat (length (nodup Z.eq_dec y)).
(* the tensors and dicts the factory of bundles looks at; integers as they are *)
Definition as_sample (v : value) : sample :=
  match v with
  | VTensor a _ => Tensor (a_shape a) (floating (a_type a)) (map Qfloor (a_vals a))
  | VDict l => match get l "x" with Some (VTensor a _) => Graph (a_shape a) | _ => Strange end
  | _ => Strange
  end.
(* _make_bundle (method_inductive.py lines 317-384); [over]: the sample, classifier and parameters of the heads of TriNet, which come
   with the torch backend and without moving average *)
Definition make_bundle (c : model_cfg) (xl : value) (y : list Z) (method : string) (seed : Z) (strict : bool) (offset : Z) (over : option (value * string)) (g : gen)
    : result (bundle W * gen) :=
  if c_factory c then match over with Some _ => Err BenchError | None => factory g end else
  let s := match over with Some (v, _) => v | None => xl end in
  let s := match s with VDict l => match get l "x" with Some x => x | None => s end | _ => s end in
  do s <- match s with VTensor _ _ => Ok s | _ => if strict then Err BenchError else smart None s end;
  do _ <- (if strict then match s with VTensor a _ => if floating (a_type a) then Ok tt else Err BenchError | _ => Ok tt end else Ok tt);
  let id := match over with Some (_, i) => Some i | None => c_id c end in
  let backend := match over with Some _ => Some "torch" | None => c_backend c end in
  match id with
  | None => Err BenchError
  | Some id =>
    let ema := match over with Some _ => false | None => match c_ema c with Some b => b | None => String.eqb method "mean_teacher" end end in
    build W gen seeded draw pretrained id backend (c_params c) (as_sample s) (Some (num_classes y)) (seed + offset) ema g
  end.
(* what a network returns: a tensor, a mapping with logits and feat, or a pair (factory.py lines 151-154, 209-213, 640-667 and
   756-774 of src/modssc/inductive/deep/bundle_factories/factory.py) *)
Inductive reply := RTensor (s : list nat) | RMap (l f : list nat) | RTuple (l f : list nat).
Definition reply_of (id : string) (n : net) (x : sample) : result reply :=
  do o <- forward n x;
  match feat o with
  | None => Ok (RTensor (logits o))
  | Some f => if String.eqb id "image_cnn" || String.eqb id "lstm_scratch" then Ok (RTuple (logits o) f) else Ok (RMap (logits o) f)
  end.
(* the sample of the heads of TriNet (method_inductive.py lines 429-441): a tensor, the features of a mapping, the first of a pair *)
Definition head_sample (r : reply) : list nat := match r with RTensor s => s | RMap _ f => f | RTuple l _ => l end.
Definition first_row (v : value) : result value :=
  match v with
  | VTensor a d => match a_shape a with
                   | n :: r => if Nat.ltb 1 n then Ok (VTensor {| a_type := a_type a; a_shape := 1%nat :: r; a_vals := firstn (prod r) (a_vals a) |} d) else Ok v
                   | [] => Ok v
                   end
  | _ => select v [0]
  end.
(* the three heads of TriNet (method_inductive.py lines 448-463) *)
Definition head_id (c : model_cfg) : string := match c_id c with Some i => if String.eqb i "mlp" || String.eqb i "logreg" then i else "logreg" | None => "logreg" end.
Fixpoint make_heads (c : model_cfg) (hs : value) (y : list Z) (method : string) (seed : Z) (strict : bool) (offsets : list Z) (g : gen) : result (list (bundle W) * gen) :=
  match offsets with
  | [] => Ok ([], g)
  | o :: r => do ' (b, g1) <- make_bundle c hs y method seed strict o (Some (hs, head_id c)) g; do ' (bs, g2) <- make_heads c hs y method seed strict r g1; Ok (b :: bs, g2)
  end.
(* _inject_model_bundle (method_inductive.py lines 300-471): the fields of the specification that are replaced.  [fields]: those it
   has, None when there is no specification *)
Definition inject (fields : option (list string)) (cfg : option model_cfg) (xl : value) (y : list Z) (method : string) (seed : Z) (strict : bool) (g : gen)
    : result (list (string * list (bundle W)) * gen) :=
  match cfg with
  | None => Ok ([], g)
  | Some c =>
    match fields with
    | None => Err BenchError
    | Some fs =>
      let has f := existsb (String.eqb f) fs in
      let mk o := make_bundle c xl y method seed strict o None in
      let two a b := do ' (b0, g0) <- mk 0 g; do ' (b1, g1) <- mk 1 g0; Ok ([(a, [b0]); (b, [b1])], g1) in
      if has "model_bundle" then do ' (b, g') <- mk 0 g; Ok ([("model_bundle", [b])], g')
      else if has "teacher_bundle" && has "student_bundle" then two "student_bundle" "teacher_bundle"
      else if has "model_bundle_1" && has "model_bundle_2" then two "model_bundle_1" "model_bundle_2"
      else if has "pretrain_bundle" && has "finetune_bundle" then two "pretrain_bundle" "finetune_bundle"
      else if has "shared_bundle" && has "head_bundles" then
        if c_factory c then Err BenchError else
        do ' (shared, g0) <- mk 0 g;
        do _ <- match xl with VTensor _ _ => Ok tt | VDict l => match get l "x" with Some _ => Ok tt | None => Err BenchError end | _ => Err BenchError end;
        do s <- first_row xl;
        do r <- reply_of (match c_id c with Some i => i | None => "" end) (b_net W shared) (as_sample s);
        let hs := VTensor {| a_type := Floating; a_shape := head_sample r; a_vals := [] |} "cpu" in
        do ' (heads, g1) <- make_heads c hs y method seed strict [1; 2; 3] g0;
        Ok ([("shared_bundle", [shared]); ("head_bundles", heads)], g1)
      else Err BenchError
    end
  end.

(* _forward_shared (trinet.py lines 40-55): the features of an LSTM come from its bundle's forward_features (factory.py lines
   666-672), a pair is refused *)
Definition shared_features (id : string) (n : net) (x : sample) : result (list nat) :=
  match n with
  | Recurrent v e w both k _ => do o <- lstm_forward v e w both k true x; match feat o with Some f => Ok f | None => Err AttributeError end
  | _ => do r <- reply_of id n x; match r with RTensor s => Ok s | RMap _ f => Ok f | RTuple _ _ => Err InductiveValidationError end
  end.
(* _forward_head (trinet.py lines 58-64) with extract_logits (helpers/torch_support.py lines 31-47), for the heads mlp and logreg *)
Definition head_logits (n : net) (f : list nat) : result (list nat) := do o <- forward n (Tensor f true []); Ok (logits o).
End Values.
