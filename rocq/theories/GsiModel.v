(* Model of the GraphSAGE classifier for supervised learning on graphs (src/modssc/supervised/backends/torch/graphsage_inductive.py).
   Numbers are rational; the rounding of float32 is not modelled. *)
From Coq Require Import String QArith.
From Verif Require Import Prelude.
Local Open Scope string_scope.
Local Open Scope Z_scope.
Local Open Scope list_scope.
Local Notation length := List.length.

(* ----- the constructor ----- *)
(* values given for hidden_sizes: nothing, one number, a list or tuple of numbers, anything else *)
Inductive sizes_arg := SNone | SInt (h : Z) | SSeq (l : list Z) | SOther.
(* _normalize_hidden_sizes (graphsage_inductive.py lines 44-51) *)
Definition normalize (a : sizes_arg) : result (option (list Z)) :=
  match a with SNone => Ok None | SInt h => Ok (Some [h]) | SSeq l => Ok (Some l) | SOther => Err ValueError end.
(* what the classifier keeps of its arguments (graphsage_inductive.py lines 118-127); batch_size and num_neighbors are kept and never read *)
Record params := { c_sizes : option (list Z); c_hidden : Z; c_layers : Z; c_activation : string; c_epochs : Z; c_seed : option Z; c_batch : Z; c_neighbors : list Z }.
(* __init__ (graphsage_inductive.py lines 83-130) *)
Definition make (hidden : option Z) (sizes : sizes_arg) (layers : option Z) (activation : string) (epochs : Z) (seed : option Z) (batch : Z) (neighbors : list Z) : result params :=
  do hs <- normalize sizes;
  do ' (h, n) <- match hs with
    | Some (a :: r) =>
      if existsb (fun h => h <=? 0) (a :: r) then Err ValueError
      else if match layers with Some n => negb (n =? Z.of_nat (length (a :: r)) + 1) | None => false end then Err ValueError
      else Ok (Some a, Some (Z.of_nat (length (a :: r)) + 1))
    | _ => Ok (hidden, layers)
    end;
  Ok {| c_sizes := hs; c_hidden := match h with Some a => a | None => 128 end; c_layers := match n with Some a => a | None => 2 end; c_activation := activation;
        c_epochs := epochs; c_seed := seed; c_batch := batch; c_neighbors := match neighbors with [] => [15; 10] | _ => neighbors end |}.

(* ----- inputs ----- *)
(* node features: a 2D array by rows (with its width) or an array of another rank; edge_index: two rows or another shape *)
Inductive feats := F2 (w : nat) (rows : list (list Q)) | FOther.
Inductive edgeval := E2 (src dst : list Z) | EOther.
(* X: a dict (the values under x, edge_index and edge_weight), an object with a shape, anything else *)
Inductive input := IDict (x : option feats) (ei : option edgeval) (ew : option (list Q)) | IArray (x : feats) | IOther.
Inductive labels := Y1 (l : list Z) | YOther.
Record net_in := { n_w : nat; n_rows : list (list Q); n_edges : list (Z * Z) }.
(* _coerce_graph_input (graphsage_inductive.py lines 54-74) *)
Definition coerce (X : input) (allow : bool) : result net_in :=
  do ' (x, e) <- match X with
    | IDict (Some x) (Some e) _ => Ok (x, e)
    | IDict _ _ _ => Err ValueError
    | IArray x => if allow then Ok (x, E2 [] []) else Err ValueError
    | IOther => Err ValueError
    end;
  match x, e with
  | F2 w rows, E2 src dst => Ok {| n_w := w; n_rows := rows; n_edges := combine src dst |}
  | _, _ => Err ValueError
  end.

(* ----- the network ----- *)
(* one SAGEConv: the matrix for the mean of the neighbours with its bias, the matrix for the node itself (torch_geometric, defaults) *)
Record layer := { l_nb : list (list Q); l_bias : list Q; l_self : list (list Q) }.
Fixpoint dot (a b : list Q) : Q := match a, b with x :: a', y :: b' => (x * y + dot a' b')%Q | _, _ => 0%Q end.
Fixpoint vadd (a b : list Q) : list Q := match a, b with x :: a', y :: b' => (x + y)%Q :: vadd a' b' | _, _ => [] end.
Definition row_at (rows : list (list Q)) (v : Z) : list Q := nth (Z.to_nat v) rows [].
(* the sources of the edges into v, in order *)
Definition sources (e : list (Z * Z)) (v : Z) : list Z := map fst (filter (fun p => snd p =? v) e).
Definition vsum (w : nat) (l : list (list Q)) : list Q := fold_left vadd l (repeat 0%Q w).
Definition mean (w : nat) (l : list (list Q)) : list Q := match l with [] => repeat 0%Q w | _ => map (fun x => (x / inject_Z (Z.of_nat (length l)))%Q) (vsum w l) end.
Definition conv_at (ly : layer) (w : nat) (rows : list (list Q)) (e : list (Z * Z)) (v : Z) : list Q :=
  let m := mean w (map (row_at rows) (sources e v)) in
  map (fun p => (dot (fst (fst p)) m + snd (fst p) + dot (snd p) (row_at rows v))%Q) (combine (combine (l_nb ly) (l_bias ly)) (l_self ly)).
Definition nodes (rows : list (list Q)) : list Z := arange (Z.of_nat (length rows)).

Section Net.
(* the three activations; softmax of a row; the position of its largest entry *)
Variable act : string -> Q -> Q.
Variable softmax : list Q -> list Q.
Variable argmax : list Q -> nat.
(* _resolve_activation (graphsage_inductive.py lines 33-41): the name in lower case *)
Variable lower : string -> string.
Definition resolve (name : string) : result (Q -> Q) :=
  let k := lower name in
  if String.eqb k "relu" then Ok (act "relu") else if String.eqb k "gelu" then Ok (act "gelu") else if String.eqb k "tanh" then Ok (act "tanh") else Err ValueError.
(* GNN.forward (graphsage_inductive.py lines 176-182) in evaluation mode: no dropout *)
Fixpoint forward (a : Q -> Q) (ls : list layer) (w : nat) (rows : list (list Q)) (e : list (Z * Z)) : list (list Q) :=
  match ls with
  | [] => rows
  | [ly] => map (conv_at ly w rows e) (nodes rows)
  | ly :: r => forward a r (length (l_bias ly)) (map (fun v => map a (conv_at ly w rows e v)) (nodes rows)) e
  end.

(* weights drawn for the sizes of the layers; one epoch of full-batch training: gradient, Adam, dropout masks (with the rate, decay and dropout
   of the classifier, which stay the same) *)
Variables gen : Type.
Variable seeded : Z -> gen.
Variable init : list Z -> gen -> list layer * gen.
Variable epoch : (Q -> Q) -> net_in -> list Z -> (list layer * gen) -> list layer * gen.

(* the state of the classifier object and the global generator *)
Record model := { m_act : Q -> Q; m_in : nat; m_layers : list layer }.
Record state := { st_classes : option (list Z); st_model : option model; st_gen : gen }.

(* layer_sizes (graphsage_inductive.py lines 184-189) *)
Definition layer_sizes (c : params) (w : nat) (k : Z) : list Z :=
  match c_sizes c with
  | Some (a :: r) => Z.of_nat w :: (a :: r) ++ [k]
  | _ => Z.of_nat w :: repeat (c_hidden c) (Z.to_nat (c_layers c - 1)) ++ [k]
  end.
(* edges whose ends are not nodes stop the first forward pass *)
Definition edges_in (n : nat) (e : list (Z * Z)) : bool := forallb (fun p => (0 <=? fst p) && (fst p <? Z.of_nat n) && (0 <=? snd p) && (snd p <? Z.of_nat n)) e.
(* labels CrossEntropyLoss takes: below the number of classes and not negative, except its ignore_index -100 *)
Definition label_ok (k l : Z) : bool := ((0 <=? l) && (l <? k)) || (l =? -100).
Fixpoint maxl (d : Z) (l : list Z) : Z := match l with [] => d | x :: r => maxl (Z.max d x) r end.

(* fit (graphsage_inductive.py lines 132-213): the state it leaves and its outcome, (n_samples, n_features, n_classes) *)
Definition fit (c : params) (X : input) (y : labels) (st : state) : state * result (nat * nat * Z) :=
  let g := match c_seed c with Some s => seeded s | None => st_gen st end in
  let st := {| st_classes := st_classes st; st_model := st_model st; st_gen := g |} in
  match coerce X false with
  | Err e => (st, Err e)
  | Ok d =>
    match y with
    | YOther => (st, Err ValueError)
    | Y1 l =>
      if negb (Nat.eqb (length l) (length (n_rows d))) then (st, Err ValueError)
      else match l with
      | [] => (st, Err RuntimeError)
      | l0 :: lr =>
        let k := maxl l0 lr + 1 in
        if k <? 0 then (st, Err RuntimeError)
        else
          let st := {| st_classes := Some (arange k); st_model := st_model st; st_gen := g |} in
          match resolve (c_activation c) with
          | Err e => (st, Err e)
          | Ok a =>
            let sizes := layer_sizes c (n_w d) k in
            if existsb (fun z => z <? 0) sizes then (st, Err RuntimeError)
            else
              let '(ls, g1) := init sizes g in
              let fresh := {| st_classes := Some (arange k); st_model := Some {| m_act := a; m_in := n_w d; m_layers := ls |}; st_gen := g1 |} in
              if (0 <? c_epochs c) && negb (edges_in (length (n_rows d)) (n_edges d) && forallb (label_ok k) l) then (fresh, Err IndexError)
              else
                let '(ls', g2) := Nat.iter (Z.to_nat (c_epochs c)) (epoch a d l) (ls, g1) in
                ({| st_classes := Some (arange k); st_model := Some {| m_act := a; m_in := n_w d; m_layers := ls' |}; st_gen := g2 |},
                 Ok (length (n_rows d), n_w d, k))
          end
      end
    end
  end.

(* predict_proba (graphsage_inductive.py lines 228-244) *)
Definition predict_proba (st : state) (X : input) : result (list (list Q)) :=
  do d <- coerce X true;
  match st_model st with
  | None => Err AttributeError
  | Some m =>
    if negb (Nat.eqb (n_w d) (m_in m)) then Err RuntimeError
    else if negb (edges_in (length (n_rows d)) (n_edges d)) then Err IndexError
    else Ok (map softmax (forward (m_act m) (m_layers m) (n_w d) (n_rows d) (n_edges d)))
  end.
(* predict (graphsage_inductive.py lines 215-226); the classes at the positions are those of the last fit *)
Definition predict (st : state) (X : input) : result (list Z) :=
  do p <- predict_proba st X;
  Ok (map (fun r => match st_classes st with Some c => nth (argmax r) c 0 | None => Z.of_nat (argmax r) end) p).
End Net.
