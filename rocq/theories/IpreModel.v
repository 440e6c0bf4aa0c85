(* Model of the fine-tuned torchvision classifier (src/modssc/supervised/backends/torch/image_pretrained.py and src/modssc/supervised/backends/torch/common.py).
   Arrays are sizes with index functions; the sizes of input_shape are natural numbers.  A network is a backbone (all its parameters and buffers), a head and the
   layers among which the head is looked for; loading it, one optimizer step and its outputs are parameters.  The names of pretrained weights are not modelled. *)
From Coq Require Import QArith String.
From Verif Require Import Prelude SupervisedModel TclfModel.
Local Open Scope string_scope.
Local Open Scope list_scope.
Local Notation length := List.length.

(* ---- the layer that is replaced (image_pretrained.py lines 87-118) *)
Inductive layer := Linear (inf out : nat) | Layer (tag : nat).
Inductive part := Single (l : layer) | Group (sequential : bool) (items : list (string * layer)).
Record net := { n_fc : option layer; n_classifier : option part; n_heads : option part; n_head : option layer }.
Inductive place := AtFc | AtClassifier | InClassifier (j : nat) | AtHeads | InHeads (j : nat) | AtHead.
(* the last linear item, looked for backwards (lines 96-103) *)
Fixpoint last_linear (items : list (string * layer)) : option (nat * nat) :=
  match items with
  | [] => None
  | (_, l) :: r => match last_linear r with
                   | Some (j, i) => Some (S j, i)
                   | None => match l with Linear i _ => Some (0%nat, i) | Layer _ => None end
                   end
  end.
(* heads.head (lines 104-109) *)
Fixpoint named_head (items : list (string * layer)) : option (nat * layer) :=
  match items with
  | [] => None
  | (s, l) :: r => if String.eqb s "head" then Some (0%nat, l) else match named_head r with Some (j, l') => Some (S j, l') | None => None end
  end.
Definition put (items : list (string * layer)) (j : nat) (l : layer) : list (string * layer) := update items j (fun e => (fst e, l)).
(* _replace_classifier (lines 87-118): the network, the place and the inputs of the new head *)
Definition in_fc (m : net) (k : nat) : option (net * place * nat) :=
  match n_fc m with
  | Some (Linear i _) => Some ({| n_fc := Some (Linear i k); n_classifier := n_classifier m; n_heads := n_heads m; n_head := n_head m |}, AtFc, i)
  | _ => None
  end.
Definition in_classifier (m : net) (k : nat) : option (net * place * nat) :=
  match n_classifier m with
  | Some (Single (Linear i _)) => Some ({| n_fc := n_fc m; n_classifier := Some (Single (Linear i k)); n_heads := n_heads m; n_head := n_head m |}, AtClassifier, i)
  | Some (Group true items) =>
    match last_linear items with
    | Some (j, i) => Some ({| n_fc := n_fc m; n_classifier := Some (Group true (put items j (Linear i k))); n_heads := n_heads m; n_head := n_head m |}, InClassifier j, i)
    | None => None
    end
  | _ => None
  end.
Definition in_heads (m : net) (k : nat) : option (net * place * nat) :=
  match n_heads m with
  | Some (Single (Linear i _)) => Some ({| n_fc := n_fc m; n_classifier := n_classifier m; n_heads := Some (Single (Linear i k)); n_head := n_head m |}, AtHeads, i)
  | Some (Group b items) =>
    match named_head items with
    | Some (j, Linear i _) => Some ({| n_fc := n_fc m; n_classifier := n_classifier m; n_heads := Some (Group b (put items j (Linear i k))); n_head := n_head m |}, InHeads j, i)
    | _ => None
    end
  | _ => None
  end.
Definition in_head (m : net) (k : nat) : option (net * place * nat) :=
  match n_head m with
  | Some (Linear i _) => Some ({| n_fc := n_fc m; n_classifier := n_classifier m; n_heads := n_heads m; n_head := Some (Linear i k) |}, AtHead, i)
  | _ => None
  end.
Definition replace_classifier (m : net) (k : nat) : result (net * place * nat) :=
  match in_fc m k with Some r => Ok r | None =>
  match in_classifier m k with Some r => Ok r | None =>
  match in_heads m k with Some r => Ok r | None =>
  match in_head m k with Some r => Ok r | None => Err SupervisedError end end end end.

(* ---- pictures *)
Definition shape := (nat * nat * nat)%type.
Definition same_shape (a b : shape) : bool := let '(c, h, w) := a in let '(c', h', w') := b in Nat.eqb c c' && Nat.eqb h h' && Nat.eqb w w'.
Record settings := { s_layout : string; s_shape : option (list nat); s_repeat : bool; s_freeze : bool; s_lr : Q; s_decay : Q; s_batch : Z; s_epochs : Z; s_seed : option Z }.
Section Pictures.
Variable V : Type.
Inductive arr := A2 (n d : nat) (f : nat -> nat -> V) | A3 (n a b : nat) (f : nat -> nat -> nat -> V) | A4 (n a b c : nat) (f : nat -> nat -> nat -> nat -> V) | AOther (numel : nat).
Record pic := { p_n : nat; p_c : nat; p_h : nat; p_w : nat; p_at : nat -> nat -> nat -> nat -> V }.
Definition numel (x : arr) : nat := match x with A2 n d _ => n * d | A3 n a b _ => n * a * b | A4 n a b c _ => n * a * b * c | AOther k => k end.
(* lines 195-236: the remembered shape, the shape and the images *)
Definition lay (sp : settings) (known : option shape) (x : arr) : option shape * result (shape * pic) :=
  match x with
  | A4 n a b c f =>
    (known, if String.eqb (s_layout sp) "channels_last" then Ok ((c, a, b), {| p_n := n; p_c := c; p_h := a; p_w := b; p_at := fun i k u v => f i u v k |})
            else if String.eqb (s_layout sp) "channels_first" then Ok ((a, b, c), {| p_n := n; p_c := a; p_h := b; p_w := c; p_at := f |})
            else Err SupervisedError)
  | A3 n a b f => (known, Ok ((1%nat, a, b), {| p_n := n; p_c := 1; p_h := a; p_w := b; p_at := fun i _ u v => f i u v |}))
  | A2 n d f =>
    match (match known with
           | Some s => Ok s
           | None => match s_shape sp with Some [h; w] => Ok (1%nat, h, w) | Some [c; h; w] => Ok (c, h, w) | _ => Err SupervisedError end
           end) with
    | Err e => (known, Err e)
    | Ok (c, h, w) =>
      (Some (c, h, w), if Nat.eqb d (c * h * w) then Ok ((c, h, w), {| p_n := n; p_c := c; p_h := h; p_w := w; p_at := fun i k u v => f i ((k * h + u) * w + v)%nat |})
                       else Err SupervisedError)
    end
  | AOther _ => (known, Err SupervisedError)
  end.
(* lines 242-255 *)
Definition channels (sp : settings) (expected : option nat) (p : pic) : result pic :=
  match expected with
  | None => Ok p
  | Some e => if Nat.eqb (p_c p) e then Ok p
              else if s_repeat sp && Nat.eqb (p_c p) 1 && Nat.eqb e 3 then Ok {| p_n := p_n p; p_c := 3; p_h := p_h p; p_w := p_w p; p_at := fun i _ u v => p_at p i 0%nat u v |}
              else Err SupervisedError
  end.
(* _prepare_X (lines 195-256) *)
Definition prepare (sp : settings) (known : option shape) (expected : option nat) (infer : bool) (x : arr) : option shape * result pic :=
  let '(known, r) := lay sp known x in
  match r with
  | Err e => (known, Err e)
  | Ok (s, p) =>
    if infer then (Some s, channels sp expected p)
    else match known with
         | Some s' => if same_shape s s' then (known, channels sp expected p) else (known, Err SupervisedError)
         | None => (known, channels sp expected p)
         end
  end.

Section Fit.
Variables B H Op G : Type.                              (* backbones, heads, optimizer states, states of the global generator *)
Variable manual_seed : Z -> G.
Variable randperm : G -> nat -> list nat * G.
Variable load : G -> result (net * B * option nat) * G. (* _load_model, with the channels of its first convolution *)
Variable new_head : nat -> nat -> G -> H * G.           (* torch.nn.Linear(in, out) *)
Variable opt : bool -> B -> H -> Op.                    (* AdamW over the head only, or over everything *)
Definition row := (nat -> nat -> nat -> V)%type.
(* one batch: [tuned] says whether the backbone is optimized, [training] whether it runs in training mode *)
Variable step : bool -> bool -> list (row * nat) -> B * H * Op * G -> B * H * Op * G.
Variable logits : B -> H -> row -> list Q.              (* in evaluation mode *)
Variable softmax : list Q -> list Q.
Variable argmax : list Q -> nat.

Record image := { x_arr : arr; x_dev : Z }.
Record object := { o_known : option shape; o_expected : option nat; o_model : option (net * B * H); o_classes : option (list Z * Z) }.
Record report := { r_samples : nat; r_features : nat; r_classes : nat }.
Definition rows (p : pic) : list row := map (fun i => fun k u v => p_at p i k u v) (seq 0 (p_n p)).
(* _set_train_mode (lines 258-265), and evaluation mode for a batch of one row (lines 352-367) *)
Definition mode (sp : settings) (b : list (row * nat)) : bool := if s_freeze sp then false else negb (Nat.eqb (length b) 1).
Fixpoint steps (sp : settings) (data : list (row * nat)) (bs : list (list nat)) (s : B * H * Op * G) : B * H * Op * G :=
  match bs with
  | [] => s
  | b :: bs => let batch := flat_map (fun i => match nth_error data i with Some e => [e] | None => [] end) b in
               steps sp data bs (step (negb (s_freeze sp)) (mode sp batch) batch s)
  end.
(* lines 345-371 *)
Fixpoint train (sp : settings) (data : list (row * nat)) (epochs : nat) (s : B * H * Op * G) : B * H * Op * G :=
  match epochs with
  | O => s
  | S epochs =>
    let '(b, h, o, g) := s in
    let '(order, g) := randperm g (length data) in
    train sp data epochs (steps sp data (batches (length data) (Z.to_nat (s_batch sp)) order) (b, h, o, g))
  end.
(* the checks (lines 287-311) *)
Definition checks (sp : settings) (x : image) (y : labels) : bool :=
  (String.eqb (s_layout sp) "channels_first" || String.eqb (s_layout sp) "channels_last") && (0 <? s_batch sp)%Z && (0 <? s_epochs sp)%Z
  && negb (Qle_bool (s_lr sp) 0) && negb (Nat.eqb (numel (x_arr x)) 0) && (x_dev x =? l_dev y)%Z.
(* fit (lines 267-379) *)
Definition fit (sp : settings) (X : option image) (y : option labels) (obj : object) (g : G) : object * result report * G :=
  match X, y with
  | Some x, Some y =>
    if negb (checks sp x y) then (obj, Err SupervisedError, g) else
    let '(codes, classes) := encode_labels (l_data y) in
    let obj := {| o_known := o_known obj; o_expected := o_expected obj; o_model := o_model obj; o_classes := Some (classes, l_dev y) |} in
    let g := manual_seed (match s_seed sp with Some s => s | None => 0%Z end) in
    let '(r, g) := load g in
    match (do ' (m, b, e) <- r; do ' (m', _, i) <- replace_classifier m (length classes); Ok (m', b, e, i)) with
    | Err x => (obj, Err x, g)
    | Ok (m, b, e, i) =>
      let '(h, g) := new_head i (length classes) g in
      let '(known, r) := prepare sp (o_known obj) e true (x_arr x) in
      let obj := {| o_known := known; o_expected := e; o_model := Some (m, b, h); o_classes := o_classes obj |} in
      match r with
      | Err x => (obj, Err x, g)
      | Ok p =>
        if negb (Nat.eqb (p_n p) (length (l_data y))) then (obj, Err SupervisedError, g)
        else if negb (Qle_bool 0 (s_decay sp)) then (obj, Err ValueError, g)
        else
          let '(b, h, _, g) := train sp (combine (rows p) codes) (Z.to_nat (s_epochs sp)) (b, h, opt (negb (s_freeze sp)) b h, g) in
          ({| o_known := known; o_expected := e; o_model := Some (m, b, h); o_classes := o_classes obj |},
           Ok {| r_samples := p_n p; r_features := p_c p * p_h p * p_w p; r_classes := length classes |}, g)
      end
    end
  | _, _ => (obj, Err SupervisedError, g)
  end.
(* _scores (common.py lines 125-138): the object and the scores of every row *)
Definition scores (sp : settings) (obj : object) (X : option image) : object * result (list (list Q)) :=
  match o_model obj, o_classes obj with
  | Some (m, b, h), Some (_, dev) =>
    match X with
    | None => (obj, Err SupervisedError)
    | Some x =>
      let '(known, r) := prepare sp (o_known obj) (o_expected obj) false (x_arr x) in
      let obj := {| o_known := known; o_expected := o_expected obj; o_model := o_model obj; o_classes := o_classes obj |} in
      (obj, do p <- r; if negb (x_dev x =? dev)%Z then Err SupervisedError else Ok (map (fun r => softmax (logits b h r)) (rows p)))
    end
  | _, _ => (obj, Err RuntimeError)
  end.
(* predict (common.py lines 25-29) *)
Definition predict (sp : settings) (obj : object) (X : option image) : object * result (list Z) :=
  let '(obj', r) := scores sp obj X in
  (obj', do s <- r; match o_classes obj with None => Err RuntimeError | Some (classes, _) => Ok (map (fun p => nth (argmax p) classes 0%Z) s) end).
End Fit.
End Pictures.
