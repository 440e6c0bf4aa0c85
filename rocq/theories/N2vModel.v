(* Model of src/modssc/graph/featurization/node2vec.py and of its users src/modssc/preprocess/steps/graph/node2vec.py and
   src/modssc/transductive/methods/gnn/planetoid.py.  Exact rationals replace floating point; the generators and the
   optimiser step are parameters. *)
From Coq Require Import QArith Qminmax.
From Verif Require Import Prelude QFacts.
From Verif Require TsvmModel.
Local Open Scope Z_scope.
Local Open Scope list_scope.
Local Notation length := List.length.

Definition nbrs (adj : list (list Z)) (v : Z) : list Z := nth (Z.to_nat v) adj [].
(* graph/featurization/node2vec.py lines 6-19 _build_adjacency; sorted(set(...)) is uniqueZ *)
Definition add_edge (n : Z) (undirected : bool) (adj : list (list Z)) (e : Z * Z) : list (list Z) :=
  let (s, d) := e in
  if (0 <=? s) && (s <? n) && (0 <=? d) && (d <? n) && negb (s =? d)
  then let adj := update adj (Z.to_nat s) (fun l => l ++ [d]) in
       if undirected then update adj (Z.to_nat d) (fun l => l ++ [s]) else adj
  else adj.
Definition build_adjacency (edges : list (Z * Z)) (n : Z) (undirected : bool) : list (list Z) :=
  map uniqueZ (fold_left (add_edge n undirected) edges (repeat [] (Z.to_nat n))).

(* numpy's Generator: integers(0, n), choice(xs, p=ps), shuffle, and choice(n, size=(rows, cols), p=dist) *)
Record walk_rng := { wr_state : Type; wr_seed : Z -> wr_state; wr_integers : wr_state -> Z -> Z * wr_state;
  wr_choice : wr_state -> list Z -> list Q -> Z * wr_state; wr_shuffle : wr_state -> list Z -> list Z * wr_state;
  wr_rows : wr_state -> Z -> Z -> Z -> list Q -> list (list Z) * wr_state }.

Section Walks.
Variable R : walk_rng.
Variable adj : list (list Z).
Variables p q : Q.
(* lines 51-62: the transition probabilities *)
Definition tiny : Q := 1 # 1000000000000.
Definition weight (prev x : Z) : Q :=
  if x =? prev then (1 / Qmax p tiny)%Q else if memZ x (nbrs adj prev) then 1%Q else (1 / Qmax q tiny)%Q.
Definition probs (prev cur : Z) : list Q :=
  let ws := map (weight prev) (nbrs adj cur) in map (fun w => (w / Qsum ws)%Q) ws.
(* lines 44-65: the steps of one walk after its start; prev = -1 at the first step *)
Fixpoint walk_on (steps : nat) (prev cur : Z) (st : wr_state R) : list Z * wr_state R :=
  match steps with
  | O => ([], st)
  | S k =>
    match nbrs adj cur with
    | [] => ([], st)
    | _ :: _ =>
      let (nxt, st) := if (prev =? -1) || (Qeq_bool p 1 && Qeq_bool q 1)
                       then let (i, st) := wr_integers R st (lenZ (nbrs adj cur)) in (nth (Z.to_nat i) (nbrs adj cur) 0, st)
                       else wr_choice R st (nbrs adj cur) (probs prev cur) in
      let (rest, st) := walk_on k cur nxt st in (nxt :: rest, st)
    end
  end.
(* lines 40-66 *)
Fixpoint walks_from (num : nat) (walk_length start : Z) (st : wr_state R) : list (list Z) * wr_state R :=
  match num with
  | O => ([], st)
  | S k => let (w, st) := walk_on (Z.to_nat (walk_length - 1)) (-1) start st in
           let (ws, st) := walks_from k walk_length start st in ((start :: w) :: ws, st)
  end.
(* lines 37-67 *)
Fixpoint walks_of (starts : list Z) (num_walks walk_length : Z) (st : wr_state R) : list (list Z) * wr_state R :=
  match starts with
  | [] => ([], st)
  | s :: r => let (ws, st) := match nbrs adj s with [] => ([], st) | _ :: _ => walks_from (Z.to_nat num_walks) walk_length s st end in
              let (ws', st) := walks_of r num_walks walk_length st in (ws ++ ws', st)
  end.
(* lines 22-67 _random_walks_node2vec *)
Definition random_walks (num_walks walk_length seed : Z) : list (list Z) :=
  fst (walks_of (arange (lenZ adj)) num_walks walk_length (wr_seed R seed)).
End Walks.

(* lines 70-86 _walk_pairs *)
Definition pairs_at (w : list Z) (window : Z) (i : nat) : list (Z * Z) :=
  let j0 := Z.to_nat (Z.max 0 (Z.of_nat i - window)) in
  let j1 := Z.to_nat (Z.min (lenZ w) (Z.of_nat i + window + 1)) in
  map (fun j => (nth i w 0, nth j w 0)) (filter (fun j => negb (Nat.eqb j i)) (seq j0 (j1 - j0))).
Definition walk_pairs (walks : list (list Z)) (window : Z) : list (Z * Z) :=
  flat_map (fun w => flat_map (pairs_at w window) (seq 0 (length w))) walks.

(* the negative sampling distribution: planetoid.py lines 120-124, steps/graph/node2vec.py lines 92-95; pow is x ** 0.75 *)
Definition negative_dist (pow : Q -> Q) (adj : list (list Z)) : list Q :=
  let d := map (fun l => pow (Qmax (inject_Z (lenZ l)) 1)) adj in map (fun x => (x / Qsum d)%Q) d.

(* one update of the context objective, and of the classifier for planetoid *)
Record batch := { ba_centers : list Z; ba_contexts : list Z; ba_negatives : list (list Z); ba_nodes : list Z; ba_labels : list Z }.
Section Train.
Variable R : walk_rng.
Variables Theta T : Type.
Variable step : Theta -> batch -> Theta.                      (* loss, backward and optimizer.step() *)
Variable randperm : T -> Z -> list Z * T.                     (* torch.randperm of the process-wide generator *)
Variable pairs : list (Z * Z).
Variable dist : list Q.
Variables n_nodes num_negative sup_batch_size : Z.
Variables train_idx y : list Z.
(* planetoid.py lines 174-180; for sup_batch_size >= 0.  The preprocessing step has no labelled nodes *)
Definition labelled_batch (t : T) : list Z * T :=
  if lenZ train_idx >? sup_batch_size
  then let (sel, t) := randperm t (lenZ train_idx) in (map (fun k => nth (Z.to_nat k) train_idx 0) (firstn (Z.to_nat sup_batch_size) sel), t)
  else (train_idx, t).
(* planetoid.py lines 148-189: the batches of one epoch *)
Fixpoint run_batches (idxs : list (list Z)) (th : Theta) (st : wr_state R) (t : T) : Theta * wr_state R * T :=
  match idxs with
  | [] => (th, st, t)
  | idx :: r =>
    let picked := map (fun k => nth (Z.to_nat k) pairs (0, 0)) idx in
    let (neg, st) := wr_rows R st n_nodes (lenZ idx) num_negative dist in
    let (sup, t) := labelled_batch t in
    run_batches r (step th {| ba_centers := map fst picked; ba_contexts := map snd picked; ba_negatives := neg; ba_nodes := sup;
                              ba_labels := map (fun v => nth (Z.to_nat v) y 0) sup |}) st t
  end.
(* planetoid.py lines 146-189, steps/graph/node2vec.py lines 112-142: range(0, n, 0) is a ValueError, a negative step gives no batch *)
Fixpoint run_epochs (k : nat) (batch_size : Z) (order : list Z) (th : Theta) (st : wr_state R) (t : T) : result (Theta * T) :=
  match k with
  | O => Ok (th, t)
  | S k =>
    let (order, st) := wr_shuffle R st order in
    if batch_size =? 0 then Err ValueError
    else
      let idxs := if batch_size <? 0 then [] else TsvmModel.slices (length order) (Z.to_nat batch_size) order in
      let '(th, st, t) := run_batches idxs th st t in
      run_epochs k batch_size order th st t
  end.
End Train.

(* ---- planetoid *)
Record planetoid_spec := { ps_num_walks : Z; ps_walk_length : Z; ps_window : Z; ps_p : Q; ps_q : Q; ps_num_negative : Z; ps_batch : Z; ps_sup_batch : Z; ps_epochs : Z; ps_undirected : bool }.
(* what prepare_data_cached returns and planetoid reads *)
Record prepared := { pp_n : Z; pp_classes : Z; pp_edges : list (Z * Z); pp_y : list Z; pp_train : list bool }.
Section Planetoid.
Variable R : walk_rng.
Variables Theta T : Type.
Variable init : Z -> Z -> T -> Theta * T.                     (* the two embeddings and the linear layer: n_nodes, n_classes *)
Variable step : Theta -> batch -> Theta.
Variable randperm : T -> Z -> list Z * T.
Variable pow : Q -> Q.
(* torch.where(mask)[0] *)
Definition where_true (mask : list bool) : list Z := map Z.of_nat (filter (fun i => nth i mask false) (seq 0 (length mask))).
(* planetoid.py lines 106-116 *)
Definition planetoid_pairs (sp : planetoid_spec) (d : prepared) (seed : Z) : list (Z * Z) :=
  let adj := build_adjacency (pp_edges d) (pp_n d) (ps_undirected sp) in
  walk_pairs (random_walks R adj (ps_p sp) (ps_q sp) (ps_num_walks sp) (ps_walk_length sp) seed) (ps_window sp).
(* planetoid.py lines 78-194 fit, after the preparation of the data *)
Definition planetoid_fit (sp : planetoid_spec) (d : prepared) (seed : Z) (t : T) : result (Theta * T) :=
  let adj := build_adjacency (pp_edges d) (pp_n d) (ps_undirected sp) in
  let pairs := planetoid_pairs sp d seed in
  match pairs with
  | [] => Err ValueError
  | _ :: _ =>
    let (th, t) := init (pp_n d) (pp_classes d) t in
    let train_idx := where_true (pp_train d) in
    match train_idx with
    | [] => Err ValueError
    | _ :: _ => run_epochs R Theta T step randperm pairs (negative_dist pow adj) (pp_n d) (ps_num_negative sp) (ps_sup_batch sp) train_idx (pp_y d)
                  (Z.to_nat (ps_epochs sp)) (ps_batch sp) (arange (lenZ pairs)) th (wr_seed R seed) t
    end
  end.
(* planetoid.py lines 196-216 predict_proba; logits are those of the fitted embedding *)
Variable softmax : list Q -> list Q.
Variable logits : Theta -> list (list Q).
Definition planetoid_predict (fitted : option (Theta * Z)) (n : Z) : result (list (list Q)) :=
  match fitted with
  | None => Err RuntimeError
  | Some (th, n0) => if negb (n =? n0) then Err ValueError else Ok (map softmax (logits th))
  end.
End Planetoid.

(* ---- the preprocessing step *)
Record n2v_spec := { ns_dim : Z; ns_num_walks : Z; ns_walk_length : Z; ns_window : Z; ns_p : Q; ns_q : Q; ns_num_negative : Z; ns_batch : Z; ns_epochs : Z; ns_undirected : bool }.
(* edge_index: a two-dimensional array as its shape and its rows, or an array of another number of dimensions *)
Definition edges_of (rows cols : Z) (a : Z -> Z -> Z) : result (list (Z * Z)) :=
  if negb (rows =? 2) && (cols =? 2) then Ok (map (fun j => (a j 0, a j 1)) (arange rows))
  else if negb (rows =? 2) then Err PreprocessError
  else Ok (map (fun j => (a 0 j, a 1 j)) (arange cols)).
Section Step.
Variable R : walk_rng.
Variables Theta T : Type.
Variable init : Z -> Z -> T -> Theta * T.                     (* the two embeddings: n_nodes, embedding_dim *)
Variable step : Theta -> batch -> Theta.
Variable pow : Q -> Q.
(* steps/graph/node2vec.py lines 37-145 transform, with n_nodes found and seed drawn from the generator of the step *)
Definition n2v_transform (sp : n2v_spec) (n rows cols : Z) (a : Z -> Z -> Z) (seed : Z) (t : T) : result (Theta * T) :=
  do edges <- edges_of rows cols a;
  if ns_dim sp <=? 0 then Err PreprocessError
  else if ns_num_walks sp <=? 0 then Err PreprocessError
  else if ns_walk_length sp <=? 1 then Err PreprocessError
  else if ns_window sp <=? 0 then Err PreprocessError
  else if ns_num_negative sp <=? 0 then Err PreprocessError
  else if ns_batch sp <=? 0 then Err PreprocessError
  else if ns_epochs sp <=? 0 then Err PreprocessError
  else
    let adj := build_adjacency edges n (ns_undirected sp) in
    let pairs := walk_pairs (random_walks R adj (ns_p sp) (ns_q sp) (ns_num_walks sp) (ns_walk_length sp) seed) (ns_window sp) in
    match pairs with
    | [] => Err PreprocessError
    | _ :: _ =>
      let (th, t) := init n (ns_dim sp) t in
      run_epochs R Theta T step (fun t _ => ([], t)) pairs (negative_dist pow adj) n (ns_num_negative sp) 0 [] []
        (Z.to_nat (ns_epochs sp)) (ns_batch sp) (arange (lenZ pairs)) th (wr_seed R seed) t
    end.
End Step.
