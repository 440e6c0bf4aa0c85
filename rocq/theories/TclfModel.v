(* Model of the torch classifiers of modssc.supervised: src/modssc/supervised/backends/torch/logreg.py, mlp.py, text_cnn.py,
   image_cnn.py and common.py.  Tensors are shapes with row-major values (rationals for float32) and a device; a label
   tensor is its flattened values (y.view(-1)).  The networks, the optimizer step, softmax, argmax and torch's global
   generator are parameters.  A non-contiguous tensor, on which view raises, is not modelled. *)
From Coq Require Import QArith.
From Verif Require Import Prelude SupervisedModel.
Local Open Scope list_scope.

Record tensor := { t_shape : list nat; t_data : list Q; t_dev : Z }.
Record labels := { l_data : list Z; l_dev : Z }.
Definition sample := (list nat * list Q)%type.          (* one input of a network: its shape and values *)
Definition volume (s : list nat) : nat := fold_right Nat.mul 1%nat s.
Definition t_n (t : tensor) : nat := hd O (t_shape t).
(* X[i] *)
Definition slice (t : tensor) (i : nat) : list Q := firstn (volume (tl (t_shape t))) (skipn (i * volume (tl (t_shape t))) (t_data t)).
Definition samples (t : tensor) : list sample := map (fun i => (tl (t_shape t), slice t i)) (seq 0 (t_n t)).
(* reshape and unsqueeze keep the values *)
Definition reshaped (s : list nat) (t : tensor) : tensor := {| t_shape := s; t_data := t_data t; t_dev := t_dev t |}.

Inductive layout := ChannelsLast | ChannelsFirst | OtherLayout.
Record tclf_spec := { ts_batch : Z; ts_epochs : Z; ts_lr : Q; ts_dropout : Q; ts_decay : Q; ts_seed : option Z; ts_activation_ok : bool;
                      ts_hidden : list Z;                                        (* mlp *)
                      ts_kernels : list Z; ts_filters : Z; ts_layout : layout;   (* text_cnn *)
                      ts_conv : list Z; ts_kernel : Z; ts_fc : Z; ts_input_shape : option (list Z) (* image_cnn *) }.

(* the two-dimensional input of logreg.py lines 62-67 and 123-128 and mlp.py lines 89-94 and 169-174; reshape(0, -1) raises *)
Definition as_2d (t : tensor) : result tensor :=
  match t_shape t with
  | [] => Err SupervisedError
  | [n] => Ok (reshaped [n; 1%nat] t)
  | [_; _] => Ok t
  | n :: rest => if Nat.eqb n 0 then Err RuntimeError else Ok (reshaped [n; volume rest] t)
  end.
(* X.transpose(1, 2) *)
Definition transposed (n a b : nat) (t : tensor) : tensor :=
  {| t_shape := [n; b; a]; t_data := flat_map (fun i => flat_map (fun c => map (fun r => nth (i * (a * b) + r * b + c) (t_data t) 0%Q) (seq 0 a)) (seq 0 b)) (seq 0 n); t_dev := t_dev t |}.
(* text_cnn.py _prepare_X (lines 105-121) *)
Definition text_input (l : layout) (t : tensor) : result tensor :=
  match t_shape t with
  | [n; a; b] => match l with ChannelsLast => Ok (transposed n a b t) | ChannelsFirst => Ok t | OtherLayout => Err SupervisedError end
  | [n; a] => Ok (reshaped [n; 1%nat; a] t)
  | _ => Err SupervisedError
  end.
(* image_cnn.py _parse_input_shape (lines 27-41) *)
Definition parse_shape (s : option (list Z)) : result (option (nat * nat * nat)) :=
  match s with
  | None => Ok None
  | Some [h; w] => if ((h <=? 0) || (w <=? 0))%Z then Err SupervisedError else Ok (Some (1%nat, Z.to_nat h, Z.to_nat w))
  | Some [c; h; w] => if ((c <=? 0) || (h <=? 0) || (w <=? 0))%Z then Err SupervisedError else Ok (Some (Z.to_nat c, Z.to_nat h, Z.to_nat w))
  | Some _ => Err SupervisedError
  end.
(* image_cnn.py _prepare_X (lines 133-159) before the shape is remembered or compared *)
Definition image_input (known : option (nat * nat * nat)) (given : option (list Z)) (t : tensor) : result ((nat * nat * nat) * tensor) :=
  match t_shape t with
  | [_; c; h; w] => Ok ((c, h, w), t)
  | [n; h; w] => Ok ((1%nat, h, w), reshaped [n; 1%nat; h; w] t)
  | [n; f] =>
    do s <- match known with Some s => Ok (Some s) | None => parse_shape given end;
    match s with
    | None => Err SupervisedError
    | Some (c, h, w) => if Nat.eqb f (c * h * w) then Ok ((c, h, w), reshaped [n; c; h; w] t) else Err SupervisedError
    end
  | _ => Err SupervisedError
  end.

(* range(0, n, batch_size) with order[i : i + batch_size] (mlp.py lines 145-147); batch_size is positive *)
Fixpoint batches (fuel size : nat) (l : list nat) : list (list nat) :=
  match fuel, l with
  | S fuel, _ :: _ => firstn size l :: batches fuel size (skipn size l)
  | _, _ => []
  end.

Section Classifier.
Variables W Op G : Type.                                (* networks, optimizer states, states of the global generator *)
Variable manual_seed : Z -> G.
Variable randperm : G -> nat -> list nat * G.
Variable build : list nat -> G -> W * G.                (* a network of these sizes with random weights *)
Variable opt : W -> Op.
Variable step : list (sample * nat) -> W -> Op -> G -> W * Op * G.  (* one optimizer step on a batch; dropout draws *)
Variable logits : W -> sample -> list Q.                (* evaluation mode *)
Variable softmax : list Q -> list Q.
Variable argmax : list Q -> nat.

(* _model, _classes_t with its device, _input_shape, _kernel_sizes; the input width (channels) belongs to the network *)
Record tclf := { tc_model : option W; tc_width : nat; tc_classes : option (list Z * Z); tc_shape : option (nat * nat * nat); tc_kernels : option (list Z) }.
Record fit_result := { fr_samples : nat; fr_features : nat; fr_classes : nat }.

(* mlp.py lines 96-103, and the same checks in the other files *)
Definition check_data (t : tensor) (y : labels) : result unit :=
  if negb (Nat.eqb (t_n t) (List.length (l_data y))) then Err SupervisedError
  else if Nat.eqb (volume (t_shape t)) 0 then Err SupervisedError
  else if negb (t_dev t =? l_dev y)%Z then Err SupervisedError
  else Ok tt.
(* mlp.py lines 105-108 *)
Definition check_loop (sp : tclf_spec) : result unit :=
  if ((ts_batch sp <=? 0) || (ts_epochs sp <=? 0))%Z then Err SupervisedError else Ok tt.
(* mlp.py lines 109-112 *)
Definition check_rates (sp : tclf_spec) : result unit :=
  if Qle_bool (ts_lr sp) 0 then Err SupervisedError
  else if negb (Qle_bool 0 (ts_dropout sp) && negb (Qle_bool 1 (ts_dropout sp))) then Err SupervisedError
  else Ok tt.
(* mlp.py lines 142-152 *)
Fixpoint steps (data : list (sample * nat)) (bs : list (list nat)) (w : W) (o : Op) (g : G) : W * Op * G :=
  match bs with
  | [] => (w, o, g)
  | b :: bs => let '(w, o, g) := step (map (fun i => nth i data (([], []), O)) b) w o g in steps data bs w o g
  end.
Fixpoint train (size : nat) (data : list (sample * nat)) (fuel : nat) (w : W) (o : Op) (g : G) : W * Op * G :=
  match fuel with
  | O => (w, o, g)
  | S fuel =>
    let '(order, g) := randperm g (List.length data) in
    let '(w, o, g) := steps data (batches (List.length data) size order) w o g in
    train size data fuel w o g
  end.
(* mlp.py line 122: int(self.seed or 0) *)
Definition seed_of (sp : tclf_spec) : Z := match ts_seed sp with Some s => s | None => 0%Z end.
(* the classes, the network, the optimizer (AdamW refuses negative settings) and the epochs (mlp.py lines 118-161): the object,
   what the call returns, the global generator.  [activated]: the network has activations *)
Definition fit_core (sp : tclf_spec) (seed_first activated : bool) (sizes : nat -> list nat) (t : tensor) (y : labels) (obj : tclf) (g : G) : tclf * result fit_result * G :=
  let '(codes, classes) := encode_labels (l_data y) in
  let k := List.length classes in
  let obj := {| tc_model := tc_model obj; tc_width := tc_width obj; tc_classes := Some (classes, l_dev y); tc_shape := tc_shape obj; tc_kernels := tc_kernels obj |} in
  let g := if seed_first then manual_seed (seed_of sp) else g in
  if activated && negb (ts_activation_ok sp) then (obj, Err SupervisedError, g)
  else
    let '(w, g) := build (sizes k) g in
    if negb (Qle_bool 0 (ts_lr sp) && Qle_bool 0 (ts_decay sp)) then (obj, Err ValueError, g)
    else
    let g := if seed_first then g else manual_seed (seed_of sp) in
    let data := combine (samples t) codes in
    let '(w, _, g) := train (Z.to_nat (ts_batch sp)) data (Z.to_nat (ts_epochs sp)) w (opt w) g in
    ({| tc_model := Some w; tc_width := hd O (tl (t_shape t)); tc_classes := tc_classes obj; tc_shape := tc_shape obj; tc_kernels := tc_kernels obj |},
     Ok {| fr_samples := t_n t; fr_features := volume (tl (t_shape t)); fr_classes := k |}, g).
Definition stops (obj : tclf) (g : G) (e : exn) : tclf * result fit_result * G := (obj, Err e, g).

(* TorchLogRegClassifier.fit (logreg.py lines 43-115): the network is built before the seed is set (lines 90-95) *)
Definition logreg_fit (sp : tclf_spec) (X : option tensor) (y : option labels) (obj : tclf) (g : G) : tclf * result fit_result * G :=
  match X, y with
  | Some X, Some y =>
    match (do t <- as_2d X; do _ <- check_data t y; do _ <- check_loop sp; Ok t) with
    | Err e => stops obj g e
    | Ok t => fit_core sp false false (fun k => [hd O (tl (t_shape t)); k]) t y obj g
    end
  | _, _ => stops obj g SupervisedError
  end.
(* TorchMLPClassifier.fit (mlp.py lines 66-161) *)
Definition mlp_fit (sp : tclf_spec) (X : option tensor) (y : option labels) (obj : tclf) (g : G) : tclf * result fit_result * G :=
  match X, y with
  | Some X, Some y =>
    match (do t <- as_2d X; do _ <- check_data t y; do _ <- check_loop sp; do _ <- check_rates sp;
           if existsb (fun h => h <=? 0)%Z (ts_hidden sp) then Err SupervisedError else Ok t) with
    | Err e => stops obj g e
    | Ok t => fit_core sp true (negb (Nat.eqb (List.length (ts_hidden sp)) 0)) (fun k => hd O (tl (t_shape t)) :: map Z.to_nat (ts_hidden sp) ++ [k]) t y obj g
    end
  | _, _ => stops obj g SupervisedError
  end.
(* TorchTextCNNClassifier.fit (text_cnn.py lines 123-224) *)
Definition text_fit (sp : tclf_spec) (X : option tensor) (y : option labels) (obj : tclf) (g : G) : tclf * result fit_result * G :=
  match y, X, ts_layout sp with
  | None, _, _ | _, _, OtherLayout | _, None, _ => stops obj g SupervisedError
  | Some y, Some X, l =>
    match (do t <- text_input l X; do _ <- check_data t y;
           do _ <- (if (Nat.eqb (List.length (ts_kernels sp)) 0 || (ts_filters sp <=? 0)%Z)%bool then Err SupervisedError else Ok tt);
           do _ <- check_loop sp; do _ <- check_rates sp;
           if existsb (fun k => k <=? 0)%Z (ts_kernels sp) then Err SupervisedError
           else
             let usable := filter (fun k => (k <=? Z.of_nat (nth 2 (t_shape t) O))%Z) (ts_kernels sp) in
             if Nat.eqb (List.length usable) 0 then Err SupervisedError else Ok (t, usable)) with
    | Err e => stops obj g e
    | Ok (t, usable) =>
      let '(obj, r, g) := fit_core sp true true (fun k => hd O (tl (t_shape t)) :: map Z.to_nat usable ++ [k]) t y obj g in
      match r with
      | Ok _ => ({| tc_model := tc_model obj; tc_width := tc_width obj; tc_classes := tc_classes obj; tc_shape := tc_shape obj; tc_kernels := Some usable |}, r, g)
      | Err _ => (obj, r, g)
      end
    end
  end.
(* TorchImageCNNClassifier.fit (image_cnn.py lines 161-256): the shape is remembered before the checks (line 184) *)
Definition image_fit (sp : tclf_spec) (X : option tensor) (y : option labels) (obj : tclf) (g : G) : tclf * result fit_result * G :=
  match y, X with
  | None, _ | _, None => stops obj g SupervisedError
  | Some y, Some X =>
    match image_input (tc_shape obj) (ts_input_shape sp) X with
    | Err e => stops obj g e
    | Ok (s, t) =>
      let obj := {| tc_model := tc_model obj; tc_width := tc_width obj; tc_classes := tc_classes obj; tc_shape := Some s; tc_kernels := tc_kernels obj |} in
      match (do _ <- check_data t y;
             do _ <- (if (Nat.eqb (List.length (ts_conv sp)) 0 || (ts_kernel sp <=? 0)%Z || (ts_fc sp <? 0)%Z)%bool then Err SupervisedError else Ok tt);
             do _ <- check_loop sp; do _ <- check_rates sp;
             if existsb (fun c => c <=? 0)%Z (ts_conv sp) then Err SupervisedError else Ok tt) with
      | Err e => stops obj g e
      | Ok _ => fit_core sp true true (fun k => fst (fst s) :: map Z.to_nat (ts_conv sp) ++ [k]) t y obj g
      end
    end
  end.

(* _scores: the checks, then the softmax of the logits of every sample (logreg.py lines 117-134) *)
Definition scores_of (w : W) (t : tensor) : list (list Q) := map (fun s => softmax (logits w s)) (samples t).
Definition flat_scores (obj : tclf) (X : option tensor) : result (list (list Q)) :=
  match tc_model obj, tc_classes obj with
  | Some w, Some (_, dev) =>
    match X with
    | None => Err SupervisedError
    | Some X =>
      do t <- as_2d X;
      if negb (t_dev t =? dev)%Z then Err SupervisedError
      else if negb (Nat.eqb (hd O (tl (t_shape t))) (tc_width obj)) then Err RuntimeError
      else Ok (scores_of w t)
    end
  | _, _ => Err RuntimeError
  end.
(* text_cnn.py lines 226-238 *)
Definition text_scores (sp : tclf_spec) (obj : tclf) (X : option tensor) : result (list (list Q)) :=
  match tc_model obj, tc_classes obj, tc_kernels obj with
  | Some w, Some (_, dev), Some ks =>
    match X with
    | None => Err SupervisedError
    | Some X =>
      do t <- text_input (ts_layout sp) X;
      if negb (t_dev t =? dev)%Z then Err SupervisedError
      else if (Z.of_nat (nth 2 (t_shape t) O) <? fold_right Z.max 0 ks)%Z then Err SupervisedError
      else if negb (Nat.eqb (hd O (tl (t_shape t))) (tc_width obj)) then Err RuntimeError
      else Ok (scores_of w t)
    end
  | _, _, _ => Err RuntimeError
  end.
(* common.py lines 125-138 with image_cnn.py lines 155-159 *)
Definition image_scores (sp : tclf_spec) (obj : tclf) (X : option tensor) : result (list (list Q)) :=
  match tc_model obj, tc_classes obj with
  | Some w, Some (_, dev) =>
    match X with
    | None => Err SupervisedError
    | Some X =>
      do ' (s, t) <- image_input (tc_shape obj) (ts_input_shape sp) X;
      if match tc_shape obj with
         | Some (c, h, w) => let '(c', h', w') := s in negb (Nat.eqb c c' && Nat.eqb h h' && Nat.eqb w w')
         | None => false
         end
      then Err SupervisedError
      else if negb (t_dev t =? dev)%Z then Err SupervisedError
      else Ok (scores_of w t)
    end
  | _, _ => Err RuntimeError
  end.
(* predict (common.py lines 25-29): classes_t[scores.argmax(dim=1)] *)
Definition predict_of (obj : tclf) (scores : result (list (list Q))) : result (list Z) :=
  do s <- scores;
  match tc_classes obj with
  | None => Err RuntimeError
  | Some (classes, _) => Ok (map (fun r => nth (argmax r) classes 0%Z) s)
  end.
End Classifier.
