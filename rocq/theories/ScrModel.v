(* Model of the two torch classifiers that build their network inside fit: src/modssc/supervised/backends/torch/lstm_scratch.py and
   src/modssc/supervised/backends/torch/audio_cnn_scratch.py, with scores and predictions of src/modssc/supervised/backends/torch/common.py.
   Arrays are a shape with row-major rationals; device 0 is the processor, device 1 the current accelerator.  Weights, optimizer steps, outputs, softmax, argmax and the
   generators are parameters.  Inputs that numpy cannot turn into numbers, NaN and sizes of layers that torch refuses are not modelled; an id without embedding raises as it does on the processor; an image that is too
   small raises one error (a single image of one pixel raises another in training), and the running means of the blocks before that error are part of no claim. *)
From Coq Require Import QArith.
From Verif Require Import Prelude SupervisedModel TclfModel.
Local Open Scope list_scope.
Local Notation length := List.length.

Record raw := { r_tensor : bool; r_dev : Z; r_shape : list nat; r_data : list Q }.
(* one row: token ids, or the image of a waveform with its channels, frequencies and times *)
Inductive row := Tokens (ids : list Z) | Picture (c f t : nat) (values : list Q).
Inductive kind := Lstm (vocab : nat) | Audio (base blocks : nat).
(* X.to(torch.long) rounds towards zero *)
Definition truncate (q : Q) : Z := Z.quot (Qnum q) (Zpos (Qden q)).
Definition part_of (size i : nat) (l : list Q) : list Q := firstn size (skipn (i * size) l).
(* _prepare_X (lstm_scratch.py lines 60-71; audio_cnn_scratch.py lines 61-72), with the number of features of the report (lstm_scratch.py line 179; audio_cnn_scratch.py line 191) *)
Definition prepare (k : kind) (x : raw) : result (list row * nat) :=
  match k, r_shape x with
  | Lstm _, [n; l] => if Nat.eqb n 0 then Err SupervisedError else Ok (map (fun i => Tokens (map truncate (part_of l i (r_data x)))) (seq 0 n), l)
  | Audio _ _, [n; f; t] => if Nat.eqb n 0 then Err SupervisedError else Ok (map (fun i => Picture 1 f t (part_of (f * t) i (r_data x))) (seq 0 n), (f * t)%nat)
  | Audio _ _, [n; c; f; t] => if Nat.eqb n 0 then Err SupervisedError else Ok (map (fun i => Picture c f t (part_of (c * f * t) i (r_data x))) (seq 0 n), (f * t)%nat)
  | _, _ => Err SupervisedError
  end.
(* _prepare_y (lstm_scratch.py lines 73-82; audio_cnn_scratch.py lines 74-83) *)
Definition prepare_y (y : raw) : result (list Z) := match r_data y with [] => Err SupervisedError | l => Ok (map truncate l) end.
(* _fit_device (lstm_scratch.py lines 84-96; audio_cnn_scratch.py lines 85-97) *)
Definition fit_device (cuda : bool) (jobs : option Z) (x y : raw) : result Z :=
  if r_tensor x && r_tensor y && negb (r_dev x =? r_dev y)%Z then Err SupervisedError
  else if r_tensor x then Ok (r_dev x) else if r_tensor y then Ok (r_dev y)
  else if cuda && negb (match jobs with Some z => (z =? 0)%Z | None => false end) then Ok 1%Z else Ok 0%Z.

(* the convolutions of AudioCNN (audio_cnn_scratch.py lines 119-145): inputs, outputs and kernel of each, and the inputs of the last layer *)
Fixpoint convolutions (blocks c features : nat) : list (nat * nat * nat) * nat :=
  match blocks with
  | O => ([], c)
  | S b => let '(l, last) := convolutions b features (2 * features) in ((c, features, 3%nat) :: l, last)
  end.
Inductive network := LstmNet (vocab classes : nat) | AudioNet (convs : list (nat * nat * nat)) (inputs classes : nat).
Definition network_of (k : kind) (classes : nat) : network :=
  match k with Lstm v => LstmNet v classes | Audio base blocks => let '(l, c) := convolutions blocks 1 base in AudioNet l c classes end.
(* a size after every block: the convolution (kernel 3, padding 1) keeps it, the pooling halves it and fails below 2; the last average fails on nothing *)
Fixpoint pooled (blocks size : nat) : result nat :=
  match blocks with
  | O => if Nat.eqb size 0 then Err RuntimeError else Ok size
  | S b => if Nat.ltb size 2 then Err RuntimeError else pooled b (size / 2)
  end.
(* the forward pass of one row (lstm_scratch.py lines 133-140; audio_cnn_scratch.py lines 147-153): an id without embedding, no tokens, other channels, too small an image *)
Definition forward (k : kind) (r : row) : result unit :=
  match k, r with
  | Lstm v, Tokens ids => if negb (forallb (fun i => (0 <=? i)%Z && (i <? Z.of_nat v)%Z) ids) then Err IndexError else match ids with [] => Err RuntimeError | _ => Ok tt end
  | Audio _ blocks, Picture c f t _ =>
    if negb (Nat.eqb c 1) then Err RuntimeError else do _ <- pooled blocks f; do _ <- pooled blocks t; Ok tt
  | _, _ => Err RuntimeError
  end.
Fixpoint forward_all (k : kind) (l : list row) : result unit := match l with [] => Ok tt | r :: l => do _ <- forward k r; forward_all k l end.

Record settings := { s_kind : kind; s_kernel : Z; s_dropout : Q; s_lr : Q; s_decay : Q; s_batch : Z; s_epochs : Z; s_seed : option Z; s_jobs : option Z }.
Record report := { rp_samples : nat; rp_features : nat; rp_classes : nat }.
Section Fit.
Variables W Op G R : Type.                              (* weights, optimizer states, states of the global generator and of the loader's own generator *)
Variable seed_all : Z -> G.                             (* seed_everything *)
Variable own : Z -> R.                                  (* torch.Generator().manual_seed *)
Variable order : nat -> option R * G -> list nat * (option R * G).  (* the order of an epoch of the loader *)
Variable build : network -> G -> W * G.
Variable opt : W -> Op.
Variable step : list (row * nat) -> W * Op * G -> W * Op * G.
Variable logits : W -> row -> list Q.
Variable softmax : list Q -> list Q.
Variable argmax : list Q -> nat.

Record object := { o_model : option (W * Z); o_classes : option (list Z) }.
Definition batch_of (data : list (row * nat)) (b : list nat) : list (row * nat) := flat_map (fun i => match nth_error data i with Some e => [e] | None => [] end) b.
(* one epoch (lstm_scratch.py lines 171-177; audio_cnn_scratch.py lines 183-189): the weights so far, also when a batch fails *)
Fixpoint steps (k : kind) (data : list (row * nat)) (bs : list (list nat)) (s : W * Op * G) : (W * Op * G) * result unit :=
  match bs with
  | [] => (s, Ok tt)
  | b :: bs => let batch := batch_of data b in
               match forward_all k (map fst batch) with
               | Err e => (s, Err e)
               | Ok _ => steps k data bs (step batch s)
               end
  end.
Fixpoint train (k : kind) (size : nat) (data : list (row * nat)) (epochs : nat) (own : option R) (s : W * Op * G) : (W * Op * G) * result unit :=
  match epochs with
  | O => (s, Ok tt)
  | S epochs =>
    let '(w, o, g) := s in
    let '(idx, (own, g)) := order (length data) (own, g) in
    let '(s, r) := steps k data (batches (length data) size idx) (w, o, g) in
    match r with Err e => (s, Err e) | Ok _ => train k size data epochs own s end
  end.
Definition inside (q : Q) : bool := Qle_bool 0 q && Qle_bool q 1.
(* fit (lstm_scratch.py lines 98-185; audio_cnn_scratch.py lines 99-197) *)
Definition fit (sp : settings) (cuda : bool) (X y : raw) (obj : object) (g : G) : object * result report * G :=
  let g := match s_seed sp with Some s => seed_all s | None => g end in
  match (do ' (rows, features) <- prepare (s_kind sp) X; do l <- prepare_y y;
         if negb (Nat.eqb (length rows) (length l)) then Err SupervisedError else do dev <- fit_device cuda (s_jobs sp) X y; Ok (rows, features, l, dev)) with
  | Err e => (obj, Err e, g)
  | Ok (rows, features, l, dev) =>
    let '(codes, classes) := encode_labels l in
    if negb (inside (s_dropout sp)) then ({| o_model := o_model obj; o_classes := Some classes |}, Err ValueError, g) else
    let '(w, g) := build (network_of (s_kind sp) (length classes)) g in
    if negb (Qle_bool 0 (s_lr sp) && Qle_bool 0 (s_decay sp) && (0 <? s_batch sp)%Z) then ({| o_model := Some (w, dev); o_classes := Some classes |}, Err ValueError, g) else
    let '((w, _, g), r) := train (s_kind sp) (Z.to_nat (s_batch sp)) (combine rows codes) (Z.to_nat (s_epochs sp)) (match s_seed sp with Some s => Some (own s) | None => None end) (w, opt w, g) in
    ({| o_model := Some (w, dev); o_classes := Some classes |},
     match r with Err e => Err e | Ok _ => Ok {| rp_samples := length rows; rp_features := features; rp_classes := length classes |} end, g)
  end.
(* _scores (lstm_scratch.py lines 187-202; audio_cnn_scratch.py lines 199-214) *)
Definition scores (sp : settings) (obj : object) (X : raw) : result (list (list Q)) :=
  match o_model obj, o_classes obj with
  | Some (w, dev), Some _ =>
    do ' (rows, _) <- prepare (s_kind sp) X;
    if r_tensor X && negb (r_dev X =? dev)%Z then Err SupervisedError
    else do _ <- forward_all (s_kind sp) rows; Ok (map (fun r => softmax (logits w r)) rows)
  | _, _ => Err RuntimeError
  end.
(* predict (common.py lines 25-29) *)
Definition predict (sp : settings) (obj : object) (X : raw) : result (list Z) :=
  do s <- scores sp obj X; match o_classes obj with None => Err RuntimeError | Some classes => Ok (map (fun p => nth (argmax p) classes 0%Z) s) end.
End Fit.
