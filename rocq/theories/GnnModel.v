(* Model of src/modssc/transductive/methods/gnn: common.py (graph preparation, the identity cache, full-batch training with
   early stopping) and the evaluation-time forward passes of sgc.py, appnp.py, gcn.py, graphsage.py, chebnet.py, gcnii.py,
   the attention of gat.py and the loop of grand.py.  Exact rationals replace float32; a loss is [None] when it is NaN.
   Weights, the optimizer, the torch generator and the gradient step are parameters. *)
From Coq Require Import QArith Qminmax Qabs.
From Verif Require Import Prelude QFacts TransModel.
Local Open Scope Q_scope.
Local Open Scope list_scope.

(* ---- common.py: the graph *)
(* lines 85-98 coalesce_edges: one edge per (dst, src), in that order, weights of duplicates added up *)
Definition pair_key (n : Z) (e : edge) : Z := (e_dst e * n + e_src e)%Z.
Definition coalesce (n : Z) (E : list edge) : list edge :=
  map (fun k => ((k mod n)%Z, (k / n)%Z, Qsum (map e_w (filter (fun e => (pair_key n e =? k)%Z) E)))) (uniqueZ (map (pair_key n) E)).
(* lines 101-120 add_self_loops_coalesce *)
Definition add_loops (n : Z) (fill : Q) (E : list edge) : list edge := coalesce n (E ++ map (fun i => (i, i, fill)) (arange n)).
(* lines 123-147 normalize_edge_weight *)
Inductive gnn_norm := NormRw | NormSym.
Section Norm.
Variable rsqrt : Q -> Q.                  (* torch.rsqrt *)
Variable tiny : Q.                        (* 1e-12 *)
Definition edge_norm (mode : gnn_norm) (E : list edge) (e : edge) : Q :=
  let deg i := Qmax (degree E i) tiny in
  match mode with
  | NormRw => e_w e / deg (e_dst e)
  | NormSym => e_w e * (rsqrt (deg (e_src e)) * rsqrt (deg (e_dst e)))
  end.
Definition edge_normalise (mode : gnn_norm) (E : list edge) : list edge := map (fun e => (e_src e, e_dst e, edge_norm mode E e)) E.

(* a node data set: an (n, nd_width) feature matrix, integer labels, a (2, E) edge list, weights, masks *)
Record node_data := { nd_X : mat; nd_width : nat; nd_y : list Z; nd_edges : list (Z * Z); nd_weight : option (list Q);
                      nd_train : option (list bool); nd_val : option (list bool); nd_test : option (list bool); nd_unlabeled : option (list bool) }.
Definition present {A} (o : option A) : list A := match o with Some a => [a] | None => [] end.
Record prepared := { pp_X : mat; pp_y : list Z; pp_E : list edge; pp_train : list bool; pp_val : option (list bool); pp_n : Z; pp_classes : Z }.
(* line 248: int(y.max().item()) + 1 if y.numel() > 0 else 0 *)
Definition count_classes (y : list Z) : Z := match y with [] => 0%Z | v :: r => (fold_right Z.max v r + 1)%Z end.
(* lines 183-260 prepare_data; the device and the number type are not modelled *)
Definition prepare_data (d : node_data) (loops : bool) (mode : gnn_norm) : result prepared :=
  if negb (lenZ (nd_X d) =? lenZ (nd_y d))%Z then Err TransductiveValidationError
  else
    do _ <- validate_node (nd_y d) (nd_edges d) (present (nd_train d) ++ present (nd_val d) ++ present (nd_test d) ++ present (nd_unlabeled d));
    match nd_train d with
    | None => Err ValueError
    | Some train =>
      let w := match nd_weight d with None => map (fun _ => 1) (nd_edges d) | Some l => l end in
      if negb (Nat.eqb (List.length w) (List.length (nd_edges d))) then Err ValueError
      else
        let n := lenZ (nd_X d) in
        let E := combine (nd_edges d) w in
        let E := if loops then add_loops n 1 E else E in
        Ok {| pp_X := nd_X d; pp_y := nd_y d; pp_E := edge_normalise mode E; pp_train := train; pp_val := nd_val d; pp_n := n; pp_classes := count_classes (nd_y d) |}
    end.
End Norm.

(* ---- forward passes in evaluation mode (dropout does nothing); common.py:150-155 spmm is TransModel.spmm *)
Definition relu (x : Q) : Q := Qmax x 0.
(* sgc.py:18-22 _propagate_features, grand.py:19-23 _propagate *)
Definition propagate (k : Z) (n d : nat) (E : list edge) (X : mat) : mat := Nat.iter (Z.to_nat k) (spmm E n d) X.
(* appnp.py:43-50 *)
Definition appnp_step (alpha : Q) (n c : nat) (E : list edge) (h0 h : mat) : mat :=
  tabulate n c (fun i j => (1 - alpha) * entry (spmm E n c h) i j + alpha * entry h0 i j).
Definition appnp (mlp : list Q -> list Q) (k : Z) (alpha : Q) (n c : nat) (E : list edge) (X : mat) : mat :=
  let h0 := map mlp X in Nat.iter (Z.to_nat k) (appnp_step alpha n c E h0) h0.
(* gcn.py:36-38 _GCNConv.forward, 50-56 _GCNNet.forward; lin1, lin2 are the layers with their bias, applied before the graph *)
Definition gcn_conv (lin : list Q -> list Q) (n c : nat) (E : list edge) (X : mat) : mat := spmm E n c (map lin X).
Definition gcn (lin1 lin2 : list Q -> list Q) (n h c : nat) (E : list edge) (X : mat) : mat := gcn_conv lin2 n c E (map (map relu) (gcn_conv lin1 n h E X)).
(* graphsage.py:30-33 _SAGEConv.forward, common.py:175-180 two_layer_gnn_forward *)
Definition sage_conv (lin : list Q -> list Q) (n d : nat) (E : list edge) (X : mat) : mat := map (fun i => lin (nth i X [] ++ nth i (spmm E n d X) [])) (seq 0 n).
Definition graphsage (lin1 lin2 : list Q -> list Q) (n d h : nat) (E : list edge) (X : mat) : mat := sage_conv lin2 n h E (map (map relu) (sage_conv lin1 n d E X)).
(* chebnet.py:37-59 _ChebConv.forward; mix adds up the layers applied to the Chebyshev terms, and the bias *)
Definition lap_op (n d : nat) (E : list edge) (X : mat) : mat := tabulate n d (fun i c => - entry (spmm E n d X) i c).
Fixpoint cheb_rest (fuel n d : nat) (E : list edge) (t0 t1 : mat) : list mat :=
  match fuel with
  | O => []
  | S fuel => let t2 := tabulate n d (fun i c => 2 * entry (lap_op n d E t1) i c - entry t0 i c) in t2 :: cheb_rest fuel n d E t1 t2
  end.
Definition cheb_terms (k : Z) (n d : nat) (E : list edge) (X : mat) : list mat :=
  if (1 <=? k)%Z then X :: lap_op n d E X :: cheb_rest (Z.to_nat (k - 1)) n d E X (lap_op n d E X) else [X].
Definition cheb_conv (mix : list (list Q) -> list Q) (k : Z) (n d : nat) (E : list edge) (X : mat) : mat :=
  map (fun i => mix (map (fun t => nth i t []) (cheb_terms k n d E X))) (seq 0 n).
Definition chebnet (mix1 mix2 : list (list Q) -> list Q) (k : Z) (n d h : nat) (E : list edge) (X : mat) : mat :=
  cheb_conv mix2 k n h E (map (map relu) (cheb_conv mix1 k n d E X)).
(* gcnii.py:45-62; each layer: its linear part and relu as one function of a row *)
Definition gcnii (lin_in : list Q -> list Q) (layers : list (list Q -> list Q)) (lin_out : list Q -> list Q) (alpha : Q) (n h : nat) (E : list edge) (X : mat) : mat :=
  let x0 := map (fun r => map relu (lin_in r)) X in
  map lin_out (fold_left (fun x layer => map layer (appnp_step alpha n h E x0 x)) layers x0).
(* gat.py:18-46 _edge_softmax for one head: a value per edge *)
Section Attention.
Variable exp : Q -> Q.                     (* torch.exp *)
Variable tiny : Q.                         (* 1e-16 *)
Definition arriving_values (E : list edge) (l : list Q) (i : Z) : list Q := map snd (filter (fun p : edge * Q => (e_dst (fst p) =? i)%Z) (combine E l)).
Definition largest_value (l : list Q) : Q := match l with [] => 0 | v :: r => fold_right Qmax v r end.
Definition edge_softmax (E : list edge) (l : list Q) : list Q :=
  map (fun p : edge * Q => let vs := arriving_values E l (e_dst (fst p)) in let m := largest_value vs in
                           exp (snd p - m) / (Qsum (map (fun v => exp (v - m)) vs) + tiny)) (combine E l).
(* gat.py:87-119 _GATConv.forward for one head: score is leaky_relu (h[src] . att_src + h[dst] . att_dst); the weights of the edges are not used *)
Definition gat_head (lin : list Q -> list Q) (score : list Q -> list Q -> Q) (n c : nat) (E : list edge) (X : mat) : mat :=
  let h := map lin X in
  let att := edge_softmax E (map (fun e => score (nth (Z.to_nat (e_src e)) h []) (nth (Z.to_nat (e_dst e)) h [])) E) in
  spmm (map (fun p : edge * Q => (e_src (fst p), e_dst (fst p), snd p)) (combine E att)) n c h.
End Attention.

(* ---- training *)
(* the labelled rows a mask selects *)
Definition shown (mask : list bool) (y : list Z) : list (nat * Z) := map (fun i => (i, nth i y (-1)%Z)) (filter (fun i => nth i mask false) (seq 0 (List.length y))).
(* torch.nn.functional.cross_entropy raises on a target outside the classes, except the ignore_index -100 *)
Definition bad_target (classes : Z) (rows : list (nat * Z)) : bool :=
  existsb (fun r : nat * Z => negb ((0 <=? snd r)%Z && (snd r <? classes)%Z || (snd r =? -100)%Z)) rows.
Section Training.
Variables W Op G : Type.                    (* weights, optimizer state, state of the torch generator *)
Variable step : W -> Op -> G -> list (nat * Z) -> W * Op * G.     (* one gradient step on the mean loss of these rows, with dropout *)
Variable val_loss : W -> list (nat * Z) -> option Q.            (* the mean loss of these rows in evaluation mode *)
Record train_result := { tr_epochs : Z; tr_best : option (Z * option Q); tr_weights : W; tr_gen : G }.
(* val_loss < best_val_loss - 1e-9 *)
Definition less (a b : option Q) : bool := match a, b with Some x, Some y => negb (Qle_bool (y - (1 # 1000000000)) x) | _, _ => false end.
(* common.py:364-407: [epoch] epochs are done; the result is the number of epochs, the weights, the generator and the best state *)
Fixpoint epoch_loop (first : option Q -> bool) (patience : Z) (train : list (nat * Z)) (val : option (list (nat * Z)))
    (fuel : nat) (epoch : Z) (s : W * Op * G) (best : option (Z * option Q * W)) (bad : Z) : Z * (W * G) * option (Z * option Q * W) :=
  match fuel with
  | O => (epoch, (fst (fst s), snd s), best)
  | S fuel =>
    let s := step (fst (fst s)) (snd (fst s)) (snd s) train in
    match val with
    | None => epoch_loop first patience train val fuel (epoch + 1)%Z s best bad
    | Some rows =>
      let v := val_loss (fst (fst s)) rows in
      if match best with None => first v | Some (_, b, _) => less v b end
      then epoch_loop first patience train val fuel (epoch + 1)%Z s (Some (epoch, v, fst (fst s))) 0%Z
      else if (patience <=? bad + 1)%Z then ((epoch + 1)%Z, (fst (fst s), snd s), best)
      else epoch_loop first patience train val fuel (epoch + 1)%Z s best (bad + 1)%Z
    end
  end.
(* a validation mask counts only if it selects a node: common.py:373, grand.py:149 *)
Definition val_rows (val : option (list bool)) (y : list Z) : option (list (nat * Z)) :=
  match val with Some m => if existsb (fun b => b) m then Some (shown m y) else None | None => None end.
Definition restore (r : Z * (W * G) * option (Z * option Q * W)) : train_result :=
  let '(n, (w, g), best) := r in
  {| tr_epochs := n; tr_best := match best with Some (e, v, _) => Some (e, v) | None => None end;
     tr_weights := match best with Some (_, _, w) => w | None => w end; tr_gen := g |}.
(* common.py:341-418 train_fullbatch; [epoch] is unbound when no epoch runs *)
Definition train_fullbatch (opt : W -> Op) (classes : Z) (y : list Z) (train : list bool) (val : option (list bool)) (max_epochs patience : Z) (w : W) (g : G) : result train_result :=
  let rows := shown train y in
  let vrows := val_rows val y in
  if (max_epochs <=? 0)%Z then Err UnboundLocalError
  else if bad_target classes rows then Err IndexError
  else if match vrows with Some r => bad_target classes r | None => false end then Err IndexError
  else Ok (restore (epoch_loop (fun _ => true) patience rows vrows (Z.to_nat max_epochs) 0 (w, opt w, g) None 0)).
(* grand.py:95-187: the same loop, but the best loss starts at infinity, so a NaN is never a best loss; no epoch is fine *)
Definition grand_train (opt : W -> Op) (classes : Z) (y : list Z) (train : list bool) (val : option (list bool)) (max_epochs patience : Z) (w : W) (g : G) : result train_result :=
  let rows := shown train y in
  let vrows := val_rows val y in
  if (0 <? max_epochs)%Z && (bad_target classes rows || match vrows with Some r => bad_target classes r | None => false end) then Err IndexError
  else Ok (restore (epoch_loop (fun v => match v with Some _ => true | None => false end) patience rows vrows (Z.to_nat max_epochs) 0 (w, opt w, g) None 0)).
End Training.
Arguments tr_epochs {W G}. Arguments tr_best {W G}. Arguments tr_weights {W G}. Arguments tr_gen {W G}.

(* ---- fit and predict_proba of gcn.py:78-142, appnp.py:87-152, chebnet.py:107-171, gat.py:200-264, gcnii.py:100-165,
   graphsage.py:80-143: the layers are built from the global generator, then train_fullbatch seeds it *)
Record gnn_spec := { gs_loops : bool; gs_mode : gnn_norm; gs_max_epochs : Z; gs_patience : Z }.
Record gnn_inputs := { gi_n : Z; gi_X : mat; gi_E : list edge }.
Definition inputs_of (p : prepared) : gnn_inputs := {| gi_n := pp_n p; gi_X := pp_X p; gi_E := pp_E p |}.
Section Method.
Variables W Op G : Type.
Variable rsqrt : Q -> Q.
Variable tiny : Q.
Variable init : nat -> Z -> G -> W * G.                 (* building the layers for an input width and a number of classes *)
Variable seeded : Z -> G.                               (* common.py:30-34 set_torch_seed *)
Variable opt : W -> Op.                                  (* torch.optim.Adam(model.parameters(), ...) *)
Variable step : gnn_inputs -> W -> Op -> G -> list (nat * Z) -> W * Op * G.
Variable val_loss : gnn_inputs -> W -> list (nat * Z) -> option Q.
Variable forward : W -> gnn_inputs -> mat.              (* evaluation mode *)
Variable softmax : list Q -> list Q.
Definition gnn_fit (sp : gnn_spec) (seed : Z) (d : node_data) (g : G) : result (train_result W G) :=
  do p <- prepare_data rsqrt tiny d (gs_loops sp) (gs_mode sp);
  let '(w, g) := init (nd_width d) (pp_classes p) g in
  train_fullbatch W Op G (step (inputs_of p)) (val_loss (inputs_of p)) opt (pp_classes p) (pp_y p) (pp_train p) (pp_val p) (gs_max_epochs sp) (gs_patience sp) w (seeded seed).
Definition gnn_predict (sp : gnn_spec) (w : W) (d : node_data) : result mat :=
  do p <- prepare_data rsqrt tiny d (gs_loops sp) (gs_mode sp);
  Ok (map softmax (forward w (inputs_of p))).
(* sgc.py:58-126: the propagated features are kept; predict_proba checks only the number of nodes of its argument *)
Record sgc_state := { sg_w : W; sg_X : mat; sg_n : Z }.
Variable linear : W -> list Q -> list Q.
Definition sgc_fit (k : Z) (sp : gnn_spec) (seed : Z) (d : node_data) (g : G) : result (sgc_state * G) :=
  do p <- prepare_data rsqrt tiny d (gs_loops sp) NormSym;
  let X := propagate k (Z.to_nat (pp_n p)) (nd_width d) (pp_E p) (pp_X p) in
  let '(w, g) := init (nd_width d) (pp_classes p) g in
  let inp := {| gi_n := pp_n p; gi_X := X; gi_E := [] |} in
  do r <- train_fullbatch W Op G (step inp) (val_loss inp) opt (pp_classes p) (pp_y p) (pp_train p) (pp_val p) (gs_max_epochs sp) (gs_patience sp) w (seeded seed);
  Ok ({| sg_w := tr_weights r; sg_X := X; sg_n := pp_n p |}, tr_gen r).
Definition sgc_predict (sp : gnn_spec) (st : sgc_state) (d : node_data) : result mat :=
  do p <- prepare_data rsqrt tiny d (gs_loops sp) NormSym;
  if negb (pp_n p =? sg_n st)%Z then Err ValueError
  else Ok (map (fun r => softmax (linear (sg_w st) r)) (sg_X st)).
End Method.
Arguments sg_w {W}. Arguments sg_X {W}. Arguments sg_n {W}.

(* ---- the identity cache: common.py:263-324.  Objects have an identity; what is stored there can change. *)
Record data_object := { ob_X : Z; ob_y : Z; ob_graph : Z; ob_masks : Z }.
Record graph_object := { ob_edges : Z; ob_weight : Z }.
Record masks_object := { mk_train : option (list bool); mk_val : option (list bool); mk_test : option (list bool); mk_unlabeled : option (list bool) }.
Record heap := { h_data : Z -> data_object; h_graph : Z -> graph_object; h_masks : Z -> masks_object;
                 h_X : Z -> mat * nat; h_y : Z -> list Z; h_edges : Z -> list (Z * Z); h_weight : Z -> option (list Q) }.
(* the values a data set has at this moment *)
Definition read_data (h : heap) (d : Z) : node_data :=
  let o := h_data h d in let gr := h_graph h (ob_graph o) in let m := h_masks h (ob_masks o) in
  {| nd_X := fst (h_X h (ob_X o)); nd_width := snd (h_X h (ob_X o)); nd_y := h_y h (ob_y o); nd_edges := h_edges h (ob_edges gr); nd_weight := h_weight h (ob_weight gr);
     nd_train := mk_train m; nd_val := mk_val m; nd_test := mk_test m; nd_unlabeled := mk_unlabeled m |}.
(* lines 263-289 _prep_cache_key, without the device and the number type *)
Definition prep_key (h : heap) (d : Z) (loops : bool) (mode : gnn_norm) : Z * data_object * graph_object * bool * gnn_norm :=
  (d, h_data h d, h_graph h (ob_graph (h_data h d)), loops, mode).
Definition key_eqb (a b : Z * data_object * graph_object * bool * gnn_norm) : bool :=
  let '(d, o, g, l, m) := a in let '(d', o', g', l', m') := b in
  (d =? d')%Z && (ob_X o =? ob_X o')%Z && (ob_y o =? ob_y o')%Z && (ob_graph o =? ob_graph o')%Z && (ob_masks o =? ob_masks o')%Z &&
  (ob_edges g =? ob_edges g')%Z && (ob_weight g =? ob_weight g')%Z && Bool.eqb l l' && match m, m' with NormRw, NormRw | NormSym, NormSym => true | _, _ => false end.
Definition prep_cache := option (Z * data_object * graph_object * bool * gnn_norm * prepared).
(* lines 292-324 prepare_data_cached; a call that raises leaves the cache as it is *)
Definition prepare_cached (rsqrt : Q -> Q) (tiny : Q) (c : prep_cache) (h : heap) (d : Z) (loops : bool) (mode : gnn_norm) : result prepared * prep_cache :=
  let key := prep_key h d loops mode in
  match c with
  | Some (key', p) => if key_eqb key' key then (Ok p, c)
                      else match prepare_data rsqrt tiny (read_data h d) loops mode with Ok p => (Ok p, Some (key, p)) | Err e => (Err e, c) end
  | None => match prepare_data rsqrt tiny (read_data h d) loops mode with Ok p => (Ok p, Some (key, p)) | Err e => (Err e, c) end
  end.
(* calls on one method object: the heap at the time of each call, the data set and the options *)
Definition prep_call := (heap * Z * bool * gnn_norm)%type.
Fixpoint prep_calls (rsqrt : Q -> Q) (tiny : Q) (c : prep_cache) (calls : list prep_call) : list (result prepared) :=
  match calls with
  | [] => []
  | (h, d, loops, mode) :: rest => let '(r, c) := prepare_cached rsqrt tiny c h d loops mode in r :: prep_calls rsqrt tiny c rest
  end.
