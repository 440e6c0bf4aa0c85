(* Model of src/modssc/inductive/deep/bundle_factories/factory.py: the networks a torch bundle is built with, from a classifier
   identifier, its parameters and a sample of the data, with the shapes their forward passes take and give.  The networks of
   image_cnn, audio_cnn and text_cnn are those of src/modssc/supervised/backends/torch/image_cnn.py, audio_cnn.py and text_cnn.py.
   Parameters have the types their conversions (int, float, str, bool) give; numbers of channels, filters, embeddings and kernels
   are not negative.  The two pretrained networks are not modelled. *)
From Coq Require Import String QArith.
From Verif Require Import Prelude.
Local Open Scope string_scope.
Local Open Scope Z_scope.
Local Open Scope list_scope.
Local Notation length := List.length.

Definition prod (s : list nat) : nat := fold_right Nat.mul 1%nat s.
Fixpoint map_r {A B} (f : A -> result B) (l : list A) : result (list B) :=
  match l with [] => Ok [] | a :: r => do b <- f a; do bs <- map_r f r; Ok (b :: bs) end.

(* ----- torch layers, as functions of shapes ----- *)
(* Same: activations and dropout; Conv d: Conv1d and Conv2d with d spatial sizes; Pool d: adaptive average pooling to size 1 *)
Inductive layer := Linear (i o : nat) | Same | Conv (d i o k p : nat) | Pool (d : nat) | Flatten.
(* one spatial size of a convolution with stride 1 *)
Definition window (k p x : nat) : result nat := if Nat.eqb k 0 || Nat.ltb (x + 2 * p) k then Err RuntimeError else Ok (x + 2 * p - k + 1)%nat.
Definition apply (l : layer) (s : list nat) : result (list nat) :=
  match l with
  | Linear i o => match rev s with x :: r => if Nat.eqb x i then Ok (rev r ++ [o]) else Err RuntimeError | [] => Err RuntimeError end
  | Same => Ok s
  | Conv d i o k p =>
    if Nat.eqb (length s) (d + 2) then
      match s with n :: c :: sp => if Nat.eqb c i then do sp' <- map_r (window k p) sp; Ok (n :: o :: sp') else Err RuntimeError | _ => Err RuntimeError end
    else if Nat.eqb (length s) (d + 1) then
      (* an input without batch dimension *)
      match s with c :: sp => if Nat.eqb c i then do sp' <- map_r (window k p) sp; Ok (o :: sp') else Err RuntimeError | _ => Err RuntimeError end
    else Err RuntimeError
  | Pool d =>
    if Nat.eqb (length s) (d + 2) then match s with n :: c :: _ => Ok (n :: c :: repeat 1%nat d) | _ => Err RuntimeError end
    else if Nat.eqb (length s) (d + 1) then match s with c :: _ => Ok (c :: repeat 1%nat d) | _ => Err RuntimeError end
    else Err RuntimeError
  | Flatten => match s with a :: b :: r => Ok [a; prod (b :: r)] | _ => Err IndexError end
  end.
Fixpoint run (ls : list layer) (s : list nat) : result (list nat) := match ls with [] => Ok s | l :: r => do s' <- apply l s; run r s' end.

(* ----- samples and parameters ----- *)
(* a tensor: its shape, whether it is floating, and its entries (as integers); a dict with a tensor x; anything else *)
Inductive sample := Tensor (shape : list nat) (floating : bool) (ids : list Z) | Graph (xshape : list nat) | Strange.
Inductive hidden := HInt (h : Z) | HList (hs : list Z) | HBad.
Record params := {
  p_hidden_sizes : option hidden; p_hidden_dim : option Z; p_activation : option string; p_dropout : option Q; p_lr : option Q; p_decay : option Q;
  p_features : bool; p_channels : option (list nat); p_kernel : option nat; p_fc : option Z; p_input_shape : option (list Z);
  p_kernels : option (list nat); p_filters : option nat; p_layout : option string;
  p_vocab : Z; p_embed : option nat; p_hidden_size : option Z; p_num_layers : option Z; p_both : bool; p_hidden_channels : option nat }.
Definition or_else {A} (o : option A) (d : A) : A := match o with Some a => a | None => d end.

(* the networks, with what their forward does *)
Inductive net :=
| Plain (ls : list layer)                           (* logits = ls(x) *)
| Split (ls head : list layer)                      (* feat = ls(x), logits = head(feat) *)
| Texts (i f : nat) (ks : list nat) (k : nat)       (* _TextCNN: in_channels, filters, kernels, classes *)
| Recurrent (vocab embed width : nat) (both : bool) (k : nat) (feats : bool)
| Sage (sizes : list nat) (q : Q).                  (* layer sizes and dropout of _GraphSAGEWrapper *)

(* _take_sample (factory.py lines 48-54): the first row *)
Definition take_sample (x : sample) : sample :=
  match x with
  | Tensor (n :: r) fl ids => if Nat.ltb 1 n then Tensor (1%nat :: r) fl (firstn (prod r) ids) else x
  | _ => x
  end.
(* _infer_input_dim (factory.py lines 37-45); sample[0] of no rows raises IndexError *)
Definition infer_input_dim (x : sample) : result nat :=
  match x with
  | Tensor [] _ _ => Err InductiveValidationError
  | Tensor [n] _ _ => Ok n
  | Tensor (n :: r) _ _ => if Nat.eqb n 0 then Err IndexError else Ok (prod r)
  | _ => Err InductiveValidationError
  end.
(* _normalize_hidden_sizes with the default (256, 128) (factory.py lines 15-24) *)
Definition hidden_list (hs : option hidden) (hd : option Z) : result (list Z) :=
  match hs with
  | None => match hd with None => Ok [256; 128] | Some h => Ok [h] end
  | Some (HInt h) => Ok [h]
  | Some (HList l) => Ok l
  | Some HBad => Err InductiveValidationError
  end.
Definition known (a : string) : bool := String.eqb a "relu" || String.eqb a "gelu" || String.eqb a "tanh".
(* _make_activation (factory.py lines 27-34) and make_activation (supervised/backends/torch/common.py lines 15-22) *)
Definition activation (e : exn) (a : string) : result layer := if known a then Ok Same else Err e.
(* torch.nn.Dropout wants a probability *)
Definition dropout (q : Q) : result layer := if Qle_bool 0 q && Qle_bool q 1 then Ok Same else Err ValueError.
(* the dropout layer of the networks that add it for positive values only (factory.py lines 98-99; image_cnn.py lines 80-81) *)
Definition maybe_dropout (q : Q) : result (list layer) := if Qle_bool q 0 then Ok [] else do l <- dropout q; Ok [l].
(* torch.optim.AdamW refuses negative rates *)
Definition optimizer (lr decay : Q) : result unit := if Qle_bool 0 lr && Qle_bool 0 decay then Ok tt else Err ValueError.

(* the loop over the hidden layers (factory.py lines 93-100 and 140-147): the layers and the last width *)
Fixpoint hidden_layers (w : nat) (hs : list Z) (act : string) (q : Q) : result (list layer * nat) :=
  match hs with
  | [] => Ok ([], w)
  | h :: r =>
    if h <=? 0 then Err InductiveValidationError else
    do a <- activation InductiveValidationError act;
    do dl <- maybe_dropout q;
    do ' (ls, w') <- hidden_layers (Z.to_nat h) r act q;
    Ok ([Linear w (Z.to_nat h); a] ++ dl ++ ls, w')
  end.
(* _build_mlp_bundle and _build_mlp_feature_bundle (factory.py lines 66-108 and 111-162); [force]: hidden sizes () of logreg *)
Definition build_mlp (force feats : bool) (x : sample) (k : nat) (ps : params) : result net :=
  do d <- infer_input_dim x;
  do hs <- (if force then Ok [] else hidden_list (p_hidden_sizes ps) (p_hidden_dim ps));
  do ' (ls, w) <- hidden_layers d hs (or_else (p_activation ps) "relu") (or_else (p_dropout ps) (1 # 10)%Q);
  do _ <- optimizer (or_else (p_lr ps) (1 # 1000)%Q) (or_else (p_decay ps) 0%Q);
  Ok (if feats then Split ls [Linear w k] else Plain (ls ++ [Linear w k])).

(* the convolutions and the head of _ImageCNN and _AudioCNN (image_cnn.py lines 60-86; audio_cnn.py lines 59-85) *)
Fixpoint convs (d i : nat) (chs : list nat) (k : nat) (act : string) : result (list layer * nat) :=
  match chs with
  | [] => Ok ([], i)
  | o :: r => do a <- activation SupervisedError act; do ' (ls, w) <- convs d o r k act; Ok (Conv d i o k (k / 2) :: a :: ls, w)
  end.
Definition cnn_head (w : nat) (fc : Z) (act : string) (q : Q) (k : nat) : result (list layer) :=
  if 0 <? fc then do a <- activation SupervisedError act; do dl <- maybe_dropout q; Ok ([Linear w (Z.to_nat fc); a] ++ dl ++ [Linear (Z.to_nat fc) k])
  else Ok [Linear w k].
(* _infer_image_shape (factory.py lines 165-182), the channels: the sizes are not used *)
Definition image_channels (x : sample) (shape : option (list Z)) : result nat :=
  match x with
  | Tensor [_; c; _; _] _ _ => Ok c
  | Tensor [_; _; _] _ _ => Ok 1%nat
  | Tensor [_; _] _ _ =>
    match shape with
    | None => Err InductiveValidationError
    | Some [_; _] => Ok 1%nat
    | Some [c; _; _] => if c <? 0 then Err RuntimeError else Ok (Z.to_nat c)
    | Some _ => Err InductiveValidationError
    end
  | _ => Err InductiveValidationError
  end.
(* _build_image_cnn_bundle (factory.py lines 185-228): the forward also returns the pooled features *)
Definition build_image (x : sample) (k : nat) (ps : params) : result net :=
  let act := or_else (p_activation ps) "relu" in
  do c <- image_channels x (p_input_shape ps);
  do ' (ls, w) <- convs 2 c (or_else (p_channels ps) [32; 64]%nat) (or_else (p_kernel ps) 3%nat) act;
  do hd <- cnn_head w (or_else (p_fc ps) 128) act (or_else (p_dropout ps) (1 # 5)%Q) k;
  do _ <- optimizer (or_else (p_lr ps) (1 # 1000)%Q) (or_else (p_decay ps) 0%Q);
  Ok (Split (ls ++ [Pool 2; Flatten]) hd).
(* _infer_audio_channels (factory.py lines 231-245) *)
Definition audio_channels (x : sample) (shape : option (list Z)) : result nat :=
  match x with
  | Tensor [_; c; _] _ _ => Ok c
  | Tensor [_] _ _ | Tensor [_; _] _ _ => match shape with Some [c; _] => if c <? 0 then Err RuntimeError else Ok (Z.to_nat c) | _ => Ok 1%nat end
  | _ => Err InductiveValidationError
  end.
(* _build_audio_cnn_bundle (factory.py lines 248-283) *)
Definition build_audio (x : sample) (k : nat) (ps : params) : result net :=
  let act := or_else (p_activation ps) "relu" in
  do c <- audio_channels x (p_input_shape ps);
  do ' (ls, w) <- convs 1 c (or_else (p_channels ps) [16; 32]%nat) (or_else (p_kernel ps) 5%nat) act;
  do hd <- cnn_head w (or_else (p_fc ps) 64) act (or_else (p_dropout ps) (1 # 5)%Q) k;
  do _ <- optimizer (or_else (p_lr ps) (1 # 1000)%Q) (or_else (p_decay ps) 0%Q);
  Ok (Plain (ls ++ [Pool 1; Flatten] ++ hd)).
(* _infer_text_shape (factory.py lines 286-298): channels and length *)
Definition text_shape (x : sample) (layout : string) : result (nat * nat) :=
  match x with
  | Tensor [_; a; b] _ _ => if String.eqb layout "channels_last" then Ok (b, a) else if String.eqb layout "channels_first" then Ok (a, b) else Err InductiveValidationError
  | Tensor [_; l] _ _ => Ok (1%nat, l)
  | _ => Err InductiveValidationError
  end.
(* _build_text_cnn_bundle (factory.py lines 301-337) *)
Definition build_text (x : sample) (k : nat) (ps : params) : result net :=
  do ' (c, l) <- text_shape x (or_else (p_layout ps) "channels_last");
  let usable := filter (fun n => Nat.leb n l) (or_else (p_kernels ps) [3; 4; 5]%nat) in
  match usable with
  | [] => Err InductiveValidationError
  | _ =>
    do _ <- activation SupervisedError (or_else (p_activation ps) "relu");
    do _ <- dropout (or_else (p_dropout ps) (1 # 2)%Q);
    do _ <- optimizer (or_else (p_lr ps) (1 # 1000)%Q) (or_else (p_decay ps) 0%Q);
    Ok (Texts c (or_else (p_filters ps) 100%nat) usable k)
  end.
(* max of the entries; RuntimeError for none *)
Definition max_of (l : list Z) : result Z := match l with [] => Err RuntimeError | a :: r => Ok (fold_left Z.max r a) end.
(* the vocabulary of the LSTM, asked for or guessed from the sample (factory.py lines 597-600); a dict has no max *)
Definition vocabulary (x : sample) (v : Z) : result Z :=
  if 0 <? v then Ok v
  else match x with Tensor _ true _ => Ok 20000 | Tensor _ false ids => do m <- max_of ids; Ok (m + 1) | _ => Err AttributeError end.
(* hidden_dim, else hidden_size, else the first of hidden_sizes, else 128 (factory.py lines 604-612); int() of a list raises TypeError *)
Definition lstm_width (ps : params) : result Z :=
  match p_hidden_dim ps with
  | Some h => Ok h
  | None =>
    match p_hidden_size ps with
    | Some h => Ok h
    | None => match p_hidden_sizes ps with None => Ok 128 | Some (HInt h) => Ok h | Some (HList (h :: _)) => Ok h | Some (HList []) => Err TypeError | Some HBad => Err ValueError end
    end
  end.
(* _build_lstm_bundle (factory.py lines 586-690): the sizes of embedding and LSTM must be positive (an embedding of no words fails
   only when it is used), dropout a probability *)
Definition build_lstm (x0 : sample) (k : nat) (ps : params) : result net :=
  let x := take_sample x0 in
  do v <- vocabulary x (p_vocab ps);
  do w <- lstm_width ps;
  if v <? 0 then Err RuntimeError else
  if w <=? 0 then Err ValueError else
  if or_else (p_num_layers ps) 1 <=? 0 then Err ValueError else
  do _ <- dropout (or_else (p_dropout ps) 0%Q);
  (* the device of the sample *)
  do _ <- match x with Tensor _ _ _ => Ok tt | _ => Err AttributeError end;
  do _ <- optimizer (or_else (p_lr ps) (1 # 1000)%Q) (or_else (p_decay ps) 0%Q);
  Ok (Recurrent (Z.to_nat v) (or_else (p_embed ps) 128%nat) (Z.to_nat w) (p_both ps) k (p_features ps)).
(* _build_graphsage_bundle (factory.py lines 693-786) with PyG installed *)
Definition build_sage (x : sample) (k : nat) (ps : params) : result net :=
  do hs <- match p_hidden_sizes ps with
           | None => Ok None
           | Some h =>
             do l <- match h with HInt h => Ok [h] | HList l => Ok l | HBad => Err InductiveValidationError end;
             if existsb (fun h => h <=? 0) l then Err InductiveValidationError else
             match p_num_layers ps with
             | Some n => if n =? Z.of_nat (length l) + 1 then Ok (Some l) else Err InductiveValidationError
             | None => Ok (Some l)
             end
           end;
  do d <- match x with
          | Graph s | Tensor s _ _ => match rev s with d :: _ => Ok d | [] => Err IndexError end
          | Strange => Err InductiveValidationError
          end;
  do _ <- optimizer (or_else (p_lr ps) (1 # 100)%Q) (or_else (p_decay ps) (5 # 10000)%Q);
  Ok (Sage (match hs with
            | Some l => [d] ++ map Z.to_nat l ++ [k]
            | None => [d] ++ repeat (or_else (p_hidden_channels ps) 128%nat) (Z.to_nat (or_else (p_num_layers ps) 2 - 1)) ++ [k]
            end) (or_else (p_dropout ps) (1 # 2)%Q)).

(* what the parameters of a network hold: arbitrary weights, drawn from torch's global generator *)
Section Built.
Variables (W gen : Type).
Record bundle := { b_net : net; b_weights : W; b_ema : option W }.
Variable seeded : Z -> gen.                                               (* torch.manual_seed *)
Variable draw : net -> gen -> W * gen.                                    (* the initial weights of a network *)
Variable pretrained : string -> sample -> nat -> params -> result net.    (* the two networks that are not modelled *)
(* which builder an identifier names (factory.py lines 825-912) *)
Definition dispatch (id : string) (x : sample) (k : nat) (ps : params) : result net :=
  if String.eqb id "mlp" then build_mlp false (p_features ps) x k ps
  else if String.eqb id "logreg" then build_mlp true (p_features ps) x k ps
  else if String.eqb id "image_cnn" then build_image x k ps
  else if String.eqb id "audio_cnn" then build_audio x k ps
  else if String.eqb id "text_cnn" then build_text x k ps
  else if String.eqb id "image_pretrained" then pretrained id x k ps
  else if String.eqb id "audio_pretrained" then pretrained id x k ps
  else if String.eqb id "lstm_scratch" then build_lstm x k ps
  else if String.eqb id "graphsage_inductive" then build_sage x k ps
  else Err InductiveValidationError.
(* build_torch_bundle_from_classifier (factory.py lines 789-916), from the state of torch's generator; [backend] is None or a name.
   Every builder seeds the generator before it makes the network (factory.py lines 90, 156, 205, 268, 320, 677 and 775) and ends
   with _maybe_ema (lines 57-63): a copy of the weights.  The state of the generator after a failure is not modelled. *)
Definition build (id : string) (backend : option string) (ps : params) (x0 : sample) (classes : option Z) (seed : Z) (ema : bool) (g : gen)
    : result (bundle * gen) :=
  let b := match backend with None => "auto" | Some s => if String.eqb s "" then "auto" else s end in
  let b := if String.eqb b "auto" then "torch" else b in
  if negb (String.eqb b "torch") then Err InductiveValidationError else
  let x := take_sample x0 in
  match x with
  | Strange => Err InductiveValidationError
  | _ =>
    match classes with
    | None => Err InductiveValidationError
    | Some c =>
      if c <=? 0 then Err InductiveValidationError else
      do n <- dispatch id x (Z.to_nat c) ps;
      let g0 := seeded seed in
      let '(w, g') := draw n g0 in
      Ok ({| b_net := n; b_weights := w; b_ema := if ema then Some w else None |}, g')
    end
  end.
End Built.

(* ----- forward passes ----- *)
(* what a network returns: the shape of the logits and, for some, of the features *)
Record output := { logits : list nat; feat : option (list nat) }.
(* _TextCNN.forward (text_cnn.py lines 57-67): the maximum over dimension 2 of each convolution, concatenated along dimension 1 *)
Definition text_conv (i f : nat) (s : list nat) (k : nat) : result (list nat) :=
  do s' <- apply (Conv 1 i f k 0) s; match s' with [n; c; _] => Ok [n; c] | _ => Err IndexError end.
Definition text_forward (i f : nat) (ks : list nat) (k : nat) (s : list nat) : result (list nat) :=
  do outs <- map_r (text_conv i f s) ks;
  match outs with
  | [] => Err RuntimeError
  | o :: _ => apply (Linear (f * length ks) k) [nth 0 o 0%nat; fold_right Nat.add 0%nat (map (fun o => nth 1 o 0%nat) outs)]
  end.
(* _LSTMClassifier.forward on a batch (factory.py lines 640-664): embeddings pass as they are, words must be in the vocabulary; the
   state of the last layer has one row per example.  LSTM refuses sequences of no steps *)
Definition lstm_forward (v e w : nat) (both : bool) (k : nat) (feats : bool) (x : sample) : result output :=
  match x with
  | Tensor s _ ids =>
    (* the batch size (none for a single sequence) and the number of steps *)
    do ' (n, steps) <-
      (if Nat.eqb (length s) 3 && Nat.eqb (last s 0%nat) e then Ok (firstn 1 s, nth 1 s 0%nat)
       else if forallb (fun i => (0 <=? i) && (i <? Z.of_nat v)) ids then
         (if Nat.eqb (length s) 2 then Ok (firstn 1 s, nth 1 s 0%nat) else if Nat.eqb (length s) 1 then Ok ([], nth 0 s 0%nat) else Err RuntimeError)
       else Err IndexError);
    if Nat.eqb steps 0 then Err RuntimeError else
    (* torch.cat along dimension 1 *)
    if both && Nat.eqb (length n) 0 then Err IndexError else
    let h := n ++ [if both then (w * 2)%nat else w] in
    do l <- apply (Linear (if both then (w * 2)%nat else w) k) h;
    Ok {| logits := l; feat := if feats then Some h else None |}
  | _ => Err AttributeError
  end.
(* _GraphSAGEWrapper.forward (factory.py lines 756-774): SAGEConv keeps the rows and wants its number of channels; functional
   dropout, after every layer but the last, wants a probability.  Features before the last layer, and logits *)
Fixpoint sage_layers (sizes : list nat) (q : Q) (s : list nat) : result (list nat * list nat) :=
  match sizes with
  | i :: ((o :: rest) as tail) =>
    do s' <- apply (Linear i o) s;
    match rest with [] => Ok (s, s') | _ => do _ <- dropout q; sage_layers tail q s' end
  | _ => Err IndexError
  end.
(* the forward passes: nn.Sequential, _MLPWithFeatures.forward (factory.py lines 151-154), _InductiveImageCNN.forward (lines
   209-213), _AudioCNN.forward (audio_cnn.py lines 88-93) and those above; a dict is no input of the layers.  The graph dicts
   have edges *)
Definition forward (n : net) (x : sample) : result output :=
  match n, x with
  | Plain ls, Tensor s _ _ => do l <- run ls s; Ok {| logits := l; feat := None |}
  | Split ls hd, Tensor s _ _ => do f <- run ls s; do l <- run hd f; Ok {| logits := l; feat := Some f |}
  | Texts i f ks k, Tensor s _ _ => do l <- text_forward i f ks k s; Ok {| logits := l; feat := None |}
  | Recurrent v e w both k feats, _ => lstm_forward v e w both k feats x
  | Sage sizes q, Graph s => do ' (f, l) <- sage_layers sizes q s; Ok {| logits := l; feat := Some f |}
  | Sage _ _, _ => Err ValueError
  | _, _ => Err TypeError
  end.
