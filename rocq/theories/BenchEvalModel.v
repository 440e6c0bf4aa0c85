(* Model of the benchmark runner's data handling: row selection, the data given to a method and the evaluation
   (bench/orchestrators/slicing.py, evaluation.py, method_inductive.py, method_transductive.py, preprocess.py,
   graph.py and the conversions of bench/main.py).  Arrays, tensors and lists of samples are lists of rows; numpy
   and torch are not distinguished and no dtype or device is converted (_smart_to_torch is the identity). *)
From Coq Require Import QArith String.
From Verif Require Import Prelude SamplingModel SampleServiceModel MetricsModel.
Local Open Scope string_scope.
Local Open Scope Z_scope.
Local Open Scope list_scope.

(* a[i] of numpy: negative positions count from the end *)
Definition at_index {A} (rows : list A) (i : Z) : result A :=
  let n := lenZ rows in
  let j := if i <? 0 then i + n else i in
  if (j <? 0) || (n <=? j) then Err IndexError
  else match nth_error rows (Z.to_nat j) with Some a => Ok a | None => Err IndexError end.
(* a[idx] *)
Fixpoint take {A} (rows : list A) (idx : list Z) : result (list A) :=
  match idx with
  | [] => Ok []
  | i :: r => do a <- at_index rows i; do l <- take rows r; Ok (a :: l)
  end.

(* slicing.py:13-17 *)
Definition as_idx (idx : list Z) : result (list Z) :=
  if existsb (fun i => i <? 0) idx then Err BenchError else Ok idx.

(* slicing.py:103-155 select_rows on an array, tensor or list *)
Definition select_rows {A} (X : list A) (idx : list Z) : result (list A) :=
  do idx' <- as_idx idx; take X idx'.

(* ------------------------------------------------------------------ a sample set stored as a mapping *)
(* a field of a graph mapping: the edge index, an array with at least one dimension, a 0-dimensional array
   (it has a shape but no rows), or any other object *)
Inductive field (A : Type) := FEdges (e : list (Z * Z)) | FRows (rows : list A) | FScalar (a : A) | FOther (a : A).
Arguments FEdges {A}. Arguments FRows {A}. Arguments FScalar {A}. Arguments FOther {A}.
Definition graph_map (A : Type) := dict (field A).

Section Slicing.
Variable A : Type.
Variable as_int : A -> option Z.                                      (* int(X["num_nodes"]) *)
(* torch_geometric.utils.subgraph(subset, edge_index, relabel_nodes=True, num_nodes=...) *)
Variable subgraph : list (Z * Z) -> list Z -> option Z -> result (list (Z * Z)).

(* slicing.py:20-36 *)
Definition infer_num_nodes (X : graph_map A) : option Z :=
  match get X "x" with
  | Some (FRows rows) => Some (lenZ rows)
  | Some (FEdges _) => Some 2
  | _ => match get X "num_nodes" with
         | Some (FScalar a) | Some (FOther a) => as_int a
         | _ => None
         end
  end.
(* slicing.py:89-100; len(rows) stands for shape[0] *)
Definition should_slice (f : field A) (idx : list Z) : bool :=
  match idx with
  | [] => true
  | _ => match f with FRows rows => maxZ idx <? lenZ rows | FEdges _ => maxZ idx <? 2 | FScalar _ | FOther _ => false end
  end.
(* slicing.py:121-142, one field other than edge_index *)
Definition slice_field (f : field A) (idx : list Z) : result (field A) :=
  match f with
  | FOther _ => Ok f
  | FRows rows => if should_slice f idx then do l <- take rows idx; Ok (FRows l) else Ok f
  | FScalar _ => if should_slice f idx then Err IndexError else Ok f       (* a 0-d array cannot be indexed *)
  | FEdges e => if should_slice f idx then Err IndexError else Ok f        (* an edge list under another name: not modelled further *)
  end.
Fixpoint slice_fields (l : graph_map A) (idx : list Z) : result (graph_map A) :=
  match l with
  | [] => Ok []
  | (k, f) :: r =>
      if String.eqb k "edge_index" then slice_fields r idx
      else do f' <- slice_field f idx; do r' <- slice_fields r idx; Ok ((k, f') :: r')
  end.
(* slicing.py:39-73 and 113-142; the rows of an edge_index that is not an edge list cannot be read *)
Definition select_map (X : graph_map A) (idx : list Z) : result (graph_map A) :=
  do idx' <- as_idx idx;
  match get X "edge_index" with
  | None => slice_fields X idx'
  | Some (FEdges e) =>
      do e' <- match subgraph e idx' (infer_num_nodes X) with Ok e' => Ok e' | Err _ => Err BenchError end;
      do rest <- slice_fields X idx';
      Ok (("edge_index", FEdges e') :: rest)
  | Some _ => Err BenchError
  end.
End Slicing.

(* ------------------------------------------------------------------ sampling results *)
(* main.py:76-96 _graph_sampling_to_inductive *)
Definition graph_sampling_to_inductive (m : masks) : inductive_result :=
  {| r_indices := [("train", where_true (m_train m)); ("val", where_true (m_val m)); ("test", where_true (m_test m));
                   ("train_labeled", where_true (m_labeled m)); ("train_unlabeled", where_true (m_unlabeled m))];
     r_refs := [("train", "train"); ("val", "train"); ("test", "train"); ("train_labeled", "train"); ("train_unlabeled", "train")] |}.

(* a sampling result: index sets, or masks over the nodes of a graph (result.py is_graph) *)
Inductive sampling := SIndices (r : inductive_result) | SMasks (m : masks).
Definition index_of (r : inductive_result) (k : string) : result (list Z) :=
  match get (r_indices r) k with Some l => Ok l | None => Err KeyError end.

(* preprocess.py:80-110 resolve_fit_indices *)
Definition resolve_fit_indices (s : sampling) (fit_on : option string) : result (option (list Z)) :=
  match fit_on with
  | None => Ok None
  | Some f =>
      match s with
      | SMasks m =>
          if String.eqb f "train" then Ok (Some (where_true (m_train m)))
          else if String.eqb f "train_labeled" then Ok (Some (where_true (m_labeled m)))
          else if String.eqb f "train_unlabeled" then Ok (Some (where_true (m_unlabeled m)))
          else if String.eqb f "val" then Ok (Some (where_true (m_val m)))
          else Err ValueError
      | SIndices r =>
          if String.eqb f "train" || String.eqb f "train_labeled" || String.eqb f "train_unlabeled" || String.eqb f "val"
          then do l <- index_of r f; Ok (Some l)
          else Err ValueError
      end
  end.

(* main.py:274-275 _use_test_split *)
Definition use_test_split (s : sampling) : bool :=
  match s with SIndices r => String.eqb (ref_of (r_refs r) "test") "test" | SMasks _ => false end.

(* ------------------------------------------------------------------ the inductive data *)
(* one part of a preprocessed data set: features, labels, and the labels.y artifact if preprocessing made one *)
Record part (A : Type) := { pt_X : list A; pt_y : list Z; pt_labels : option (list Z) }.
Arguments pt_X {A}. Arguments pt_y {A}. Arguments pt_labels {A}.
Record prepared (A : Type) := { pr_train : part A; pr_test : option (part A) }.
Arguments pr_train {A}. Arguments pr_test {A}.

(* evaluation.py:92-96 *)
Definition labels_for_split {A} (p : part A) : list Z := match pt_labels p with Some y => y | None => pt_y p end.
(* evaluation.py:59-89 _split_data *)
Definition split_data {A} (pre : prepared A) (r : inductive_result) (split : string) : result (list A * list Z) :=
  do idx <- index_of r split;
  do base <- (if String.eqb (ref_of (r_refs r) split) "train" then Ok (pr_train pre)
              else match pr_test pre with Some t => Ok t | None => Err BenchError end);
  do X <- select_rows (pt_X base) idx;
  do y <- select_rows (labels_for_split base) idx;
  Ok (X, y).

(* method_inductive.py:120-158 _labels_for_backend on one-dimensional integer labels *)
Definition labels_for_backend {A} (p : part A) (idx : list Z) (strict : bool) : result (list Z) :=
  let idx_max := match idx with [] => -1 | _ => maxZ idx end in
  do source <- match pt_labels p with
               | Some y => if (0 <=? idx_max) && (lenZ y <=? idx_max)
                           then if strict then Err BenchError else Ok (pt_y p)
                           else Ok y
               | None => Ok (pt_y p)
               end;
  if idx_max <? lenZ source then take source idx else Ok source.
(* method_inductive.py:561-634: what fit receives *)
Record inductive_data (A : Type) := { id_Xl : list A; id_yl : list Z; id_Xu : list A }.
Arguments id_Xl {A}. Arguments id_yl {A}. Arguments id_Xu {A}.
Definition inductive_input {A} (pre : prepared A) (r : inductive_result) (strict : bool) : result (inductive_data A) :=
  do idx_l <- index_of r "train_labeled";
  do idx_u <- index_of r "train_unlabeled";
  do Xl <- select_rows (pt_X (pr_train pre)) idx_l;
  do Xu <- select_rows (pt_X (pr_train pre)) idx_u;
  do yl <- labels_for_backend (pr_train pre) idx_l strict;
  if strict && negb (lenZ Xl =? lenZ yl) then Err BenchError                (* _validate_strict_inputs, 227-232 *)
  else Ok {| id_Xl := Xl; id_yl := yl; id_Xu := Xu |}.

(* a dictionary of reports, d[k] = v *)
Fixpoint put_report {V} (d : dict V) (k : string) (v : V) : dict V :=
  match d with
  | [] => [(k, v)]
  | (a, w) :: r => if String.eqb a k then (a, v) :: r else (a, w) :: put_report r k v
  end.
(* evaluation.py:237-307 evaluate_inductive for a method without views *)
Fixpoint evaluate_inductive_from {A} (predict_proba : list A -> result outputs) (pre : prepared A) (r : inductive_result)
    (splits metrics : list string) (out : dict scores) : result (dict scores) :=
  match splits with
  | [] => Ok out
  | s :: rest =>
      do d <- split_data pre r s;
      do p <- predict_proba (fst d);
      do y_pred <- labels_1d p;
      do m <- compute_metrics (snd d) y_pred metrics;
      evaluate_inductive_from predict_proba pre r rest metrics (put_report out s m)
  end.
Definition evaluate_inductive {A} predict_proba (pre : prepared A) r splits metrics : result (dict scores) :=
  evaluate_inductive_from predict_proba pre r splits metrics [].

(* ------------------------------------------------------------------ the transductive data *)
(* method_transductive.py:105-108 and graph.py:85-88: the test rows follow the training rows *)
Definition combine_splits {A} (train : list A) (test : option (list A)) : list A :=
  match test with Some t => train ++ t | None => train end.

(* method_transductive.py:111-116; m[idx + offset] = True with numpy's negative positions *)
Definition mask_from_indices (n : Z) (idx : list Z) (offset : Z) : result (list bool) :=
  let norm i := let j := i + offset in if j <? 0 then j + n else j in
  if existsb (fun i => let j := norm i in (j <? 0) || (n <=? j)) idx then Err IndexError
  else Ok (map (fun i => memZ i (map norm idx)) (arange n)).
(* method_transductive.py:119-149 *)
Definition build_masks (n_train : Z) (n_test : option Z) (r : inductive_result) : result masks :=
  let n := n_train + match n_test with Some t => t | None => 0 end in
  let offset k := if String.eqb (ref_of (r_refs r) k) "train" then 0 else n_train in
  let mask k := do idx <- index_of r k; mask_from_indices n idx (offset k) in
  do tr <- mask "train";
  do va <- mask "val";
  do te <- mask "test";
  do la <- mask "train_labeled";
  do un <- mask "train_unlabeled";
  Ok {| m_train := tr; m_val := va; m_test := te; m_labeled := la; m_unlabeled := un |}.
(* main.py:278-295 *)
Definition mask_map (s : sampling) (n_train : Z) (n_test : option Z) : result masks :=
  match s with SMasks m => Ok m | SIndices r => build_masks n_train n_test r end.

(* y[mask] = -1 for a mask as long as y *)
Definition hide (y : list Z) (mask : list bool) : list Z := map (fun p => if snd p : bool then -1 else fst p) (combine y mask).
(* method_transductive.py:263-273: the labels the method sees *)
Definition observed_labels (y : list Z) (m : masks) : list Z :=
  if Nat.eqb (length y) (length (m_labeled m))
  then if Nat.eqb (length (m_unlabeled m)) (length y) then hide y (m_unlabeled m)
       else hide y (map negb (m_labeled m))
  else y.

(* what a transductive method's fit receives (method_transductive.py:228-295): features, observed labels, and the
   labelled mask under the name train_mask; the graph is passed on unchanged *)
Record node_data (A : Type) := { nd_X : list A; nd_y : list Z; nd_train_mask : list bool; nd_true : list Z }.
Arguments nd_X {A}. Arguments nd_y {A}. Arguments nd_train_mask {A}. Arguments nd_true {A}.
Definition count_true (m : list bool) : Z := lenZ (filter (fun b => b) m).
Definition transductive_input {A} (pre : prepared A) (use_test : bool) (m : masks) (expected : option Z) : result (node_data A) :=
  let test := if use_test then pr_test pre else None in
  let X := combine_splits (pt_X (pr_train pre)) (option_map pt_X test) in
  let y := combine_splits (pt_y (pr_train pre)) (option_map pt_y test) in
  if match expected with Some e => negb (count_true (m_labeled m) =? e) | None => false end then Err BenchError
  else Ok {| nd_X := X; nd_y := observed_labels y m; nd_train_mask := m_labeled m; nd_true := y |}.

(* x[mask] for a mask as long as x *)
Definition keep {A} (l : list A) (mask : list bool) : list A := map fst (filter snd (combine l mask)).
(* the mask for a split; only the names that build_masks and mask_map make exist *)
Definition split_mask (m : masks) (split : string) : option (list bool) :=
  if String.eqb split "train" then Some (m_train m) else if String.eqb split "val" then Some (m_val m)
  else if String.eqb split "test" then Some (m_test m) else if String.eqb split "unlabeled" then Some (m_unlabeled m)
  else if String.eqb split "labeled" then Some (m_labeled m) else None.
(* evaluation.py:310-354 evaluate_transductive; y_pred[mask] raises unless the lengths agree *)
Fixpoint evaluate_transductive_from (y_true y_pred : list Z) (m : masks) (splits metrics : list string) (out : dict scores)
    : result (dict scores) :=
  match splits with
  | [] => Ok out
  | s :: rest =>
      match split_mask m s with
      | None => Err BenchError
      | Some mask =>
          if negb (Nat.eqb (length mask) (length y_true)) then Err BenchError
          else if negb (Nat.eqb (length mask) (length y_pred)) then Err IndexError
          else do r <- compute_metrics (keep y_true mask) (keep y_pred mask) metrics;
               evaluate_transductive_from y_true y_pred m rest metrics (put_report out s r)
      end
  end.
Definition evaluate_transductive (y_true : list Z) (predictions : outputs) (m : masks) (splits metrics : list string)
    : result (dict scores) :=
  do y_pred <- labels_1d predictions;
  evaluate_transductive_from y_true y_pred m splits metrics [].
