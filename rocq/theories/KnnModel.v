(* Model of the neighbour-graph backends:
   src/modssc/graph/construction/backends/numpy_backend.py, sklearn_backend.py, faiss_backend.py and
   src/modssc/graph/construction/schemes/anchor.py.

   The distance table (the matrix products and norms of numpy_backend.py:82-87, 112-120) is an arbitrary
   function of two node numbers.  A distance is Some z for a finite value (only the order of values
   matters, so integers stand for float32 numbers) and None for inf or nan, which numpy sorts last and
   the code drops.  -inf is not modelled.  np.argpartition and np.argsort are arbitrary functions of
   one row; what they promise is a hypothesis of the theorems. *)
From Coq Require Import String.
From Verif Require Import Prelude FsModel DecString GraphOpsModel.
Local Open Scope Z_scope.
Local Open Scope list_scope.

Notation dist := (option Z).
Definition dist_leb (a b : dist) : bool :=
  match a, b with
  | Some x, Some y => x <=? y
  | _, None => true
  | None, Some _ => false
  end.

(* Python range(0, n, step) *)
Definition py_range (n step : Z) : result (list Z) :=
  if step =? 0 then Err ValueError
  else if step <? 0 then Ok []
  else Ok (map (fun k => Z.of_nat k * step) (seq 0 (Z.to_nat ((n + step - 1) / step)))).
(* np.arange(a, b) *)
Definition arange2 (a b : Z) : list Z := map (fun k => a + Z.of_nat k) (seq 0 (Z.to_nat (b - a))).

Definition nthZ {A} (l : list A) (i : Z) (d : A) : A := nth (Z.to_nat i) l d.

Section Numpy.
Variable part : list dist -> Z -> list Z.     (* np.argpartition(row, kth=k-1)[:k] *)
Variable argsort : list dist -> list Z.       (* np.argsort(row) *)
Variable val : Z -> Z.                        (* identity for cosine, np.sqrt for euclidean *)
Variable D : Z -> Z -> dist.                  (* dist / dist2 before the diagonal is masked *)

(* numpy_backend.py:112-128: one row of the masked distance table *)
Definition row_of (n : Z) (include_self : bool) (i : Z) : list dist :=
  map (fun j => if negb include_self && (i =? j) then None else D i j) (arange n).

(* numpy_backend.py:89 *)
Definition k_eff (n k : Z) (include_self : bool) : Z :=
  if include_self then Z.min k n else Z.min k (Z.max (n - 1) 0).

(* numpy_backend.py:130-158 for one row *)
Definition knn_row (n k : Z) (include_self : bool) (i : Z) : list (edge * Z) :=
  let row := row_of n include_self i in
  let idx := part row (k_eff n k include_self) in
  let dsel := map (fun j => option_map val (nthZ row j None)) idx in
  let order := argsort dsel in
  let idx' := map (fun o => nthZ idx o 0) order in
  let dsel' := map (fun o => nthZ dsel o None) order in
  flat_map (fun p => match snd p with
                     | Some d => if include_self || negb (i =? fst p) then [((i, fst p), d)] else []
                     | None => []
                     end) (combine idx' dsel').

(* numpy_backend.py:112-158: rows start..end-1 *)
Definition knn_chunk (n k : Z) (include_self : bool) (a b : Z) : list (edge * Z) :=
  flat_map (knn_row n k include_self) (arange2 a b).

(* numpy_backend.py:77-173 without a work directory *)
Definition knn_numpy (n k : Z) (include_self : bool) (chunk : Z) : result (list (edge * Z)) :=
  if n =? 0 then Ok []
  else if k_eff n k include_self <=? 0 then Ok []
  else do starts <- py_range n chunk;
       Ok (flat_map (fun s => knn_chunk n k include_self s (Z.min n (s + chunk))) starts).

(* f"knn_{start}_{end}.npz" *)
Definition part_name (a b : Z) : string := ("knn_" ++ dec a ++ "_" ++ dec b ++ ".npz")%string.

(* numpy_backend.py:19-32 _save_npz_atomic: tempfile.mkstemp(prefix=path.name, suffix=".tmp.npz"), savez,
   os.replace.  rnd is the random part of the temporary name. *)
Definition save_npz_atomic {V} (wd : path) (name rnd : string) (v : V) : list (step V) :=
  atomic_write (wd ++ [(name ++ rnd ++ ".tmp.npz")%string]) (wd ++ [name]) v.

(* numpy_backend.py:102-166, the loop with a work directory.  rnds supplies the random temporary names.
   V is the type of file contents; enc and decd are what np.savez_compressed writes for a chunk and what
   np.load makes of a file (_load_npz, numpy_backend.py:35-37). *)
Section WorkDir.
Context {V : Type}.
Variable enc : list (edge * Z) -> V.
Variable decd : V -> result (list (edge * Z)).
Fixpoint chunk_loop (n k : Z) (include_self : bool) (chunk : Z) (wd : path) (resume : bool)
    (rnds : Z -> string) (starts : list Z) : prog V (list (edge * Z)) :=
  match starts with
  | [] => pret []
  | s :: rest =>
      let e := Z.min n (s + chunk) in
      let p := wd ++ [part_name s e] in
      run! here <- pread (fun f => exists_path f p);
      run! part <- (if resume && here
                    then (fun f => (do v <- read_file ValueError f p; decd v, []))
                    else run! u <- psteps (save_npz_atomic wd (part_name s e) (rnds s)
                                             (enc (knn_chunk n k include_self s e)));
                         pret (knn_chunk n k include_self s e));
      run! more <- chunk_loop n k include_self chunk wd resume rnds rest;
      pret (part ++ more)
  end.
Definition knn_numpy_wd (n k : Z) (include_self : bool) (chunk : Z) (wd : path) (resume : bool)
    (rnds : Z -> string) : prog V (list (edge * Z)) :=
  if n =? 0 then pret []
  else if k_eff n k include_self <=? 0 then pret []
  else run! u <- psteps [SMkdir wd];
       run! starts <- plift (py_range n chunk);
       chunk_loop n k include_self chunk wd resume rnds starts.
End WorkDir.

(* numpy_backend.py:231-251: np.where(dist <= r) is row-major; r is the (squared) radius *)
Definition eps_row (n r : Z) (include_self : bool) (i : Z) : list (edge * Z) :=
  flat_map (fun p => match snd p with
                     | Some d => if d <=? r then [((i, fst p), val d)] else []
                     | None => []
                     end) (combine (arange n) (row_of n include_self i)).
(* numpy_backend.py:187-270 without a work directory; positive_radius stands for r > 0 *)
Definition eps_numpy (n : Z) (positive_radius : bool) (r : Z) (include_self : bool) (chunk : Z)
  : result (list (edge * Z)) :=
  if n =? 0 then Ok []
  else if negb positive_radius then Err ValueError
  else do starts <- py_range n chunk;
       Ok (flat_map (fun s => flat_map (eps_row n r include_self) (arange2 s (Z.min n (s + chunk)))) starts).
End Numpy.

(* ----------------------------------------------------------------- sklearn_backend.py:12-48 *)
(* neighbors i m: what NearestNeighbors(n_neighbors=m).kneighbors returns for row i *)
Definition knn_sklearn (neighbors : Z -> Z -> list (Z * Z)) (n k : Z) (include_self : bool)
  : list (edge * Z) :=
  if n =? 0 then []
  else
    let m := Z.min n (k + (if include_self then 0 else 1)) in
    filter (fun p => include_self || negb (snd (fst p) =? fst (fst p)))
      (flat_map (fun i => map (fun q => ((i, fst q), snd q)) (neighbors i m)) (arange n)).

(* ------------------------------------------------------------------- faiss_backend.py:78-140 *)
(* search i m: row i of index.search(q, m); missing neighbours are reported as -1 *)
Definition faiss_row (search : Z -> Z -> list (Z * Z)) (n k : Z) (include_self : bool) (i : Z)
  : list (Z * Z) :=
  if include_self then search i k
  else firstn (Z.to_nat k) (filter (fun q => negb (i =? fst q)) (search i (Z.min (k + 1) n))).
Definition knn_faiss (search : Z -> Z -> list (Z * Z)) (n k : Z) (include_self : bool) : list (edge * Z) :=
  flat_map (fun i => map (fun q => ((i, fst q), snd q))
                       (filter (fun q => 0 <=? fst q) (faiss_row search n k include_self i)))
           (arange n).

(* -------------------------------------------------------------------- schemes/anchor.py:138-262 *)
Section Anchor.
Variable part : list dist -> Z -> list Z.
Variable argsort : list dist -> list Z.
Variable D : Z -> Z -> Z.                     (* exact distance between two nodes *)
Variable anchor_idx : Z -> list Z.            (* the r nearest anchors of a node, as the backend returns them *)
Variable choice : Z -> list Z -> Z -> list Z. (* default_rng(mix_seed32(seed, i)).choice(cand, size, replace=False) *)

(* list indexing with Python's negative indices: anchor -1 (no neighbour found) is the last anchor *)
Definition py_index (m a : Z) : result Z :=
  if (- m <=? a) && (a <? m) then Ok (if a <? 0 then a + m else a) else Err IndexError.

Fixpoint index_all (m : Z) (l : list Z) : result (list Z) :=
  match l with [] => Ok [] | a :: r => do x <- py_index m a; do t <- index_all m r; Ok (x :: t) end.

(* anchor.py:191-195 anchor_to_nodes, as the list of (anchor, node) in insertion order *)
Fixpoint assign_anchors (m : Z) (nodes : list Z) : result (list (Z * Z)) :=
  match nodes with
  | [] => Ok []
  | i :: r => do xs <- index_all m (anchor_idx i);
              do t <- assign_anchors m r;
              Ok (map (fun a => (a, i)) xs ++ t)
  end.

(* anchor.py:208-254 for one node *)
Definition anchor_row (m k limit : Z) (include_self : bool) (table : list (Z * Z)) (i : Z)
  : result (list (edge * Z)) :=
  do xs <- index_all m (anchor_idx i);
  let union := uniqueZ (map snd (filter (fun p => memZ (fst p) xs) table)) in
  let cand := if include_self then union else filter (fun j => negb (j =? i)) union in
  match cand with
  | [] => Ok []
  | _ =>
      let cand := if limit <? lenZ cand then sortZ (choice i cand limit) else cand in
      let d := map (fun j => Some (D i j)) cand in
      let kk := Z.min k (lenZ cand) in
      if kk <=? 0 then Ok []
      else
        let sel := part d kk in
        let order := argsort (map (fun s => nthZ d s None) sel) in
        let sel := map (fun o => nthZ sel o 0) order in
        Ok (map (fun s => ((i, nthZ cand s 0), D i (nthZ cand s 0))) sel)
  end.

Fixpoint concat_res {A B} (f : A -> result (list B)) (l : list A) : result (list B) :=
  match l with [] => Ok [] | x :: r => do a <- f x; do t <- concat_res f r; Ok (a ++ t) end.

Definition anchor_edges (n m k limit : Z) (include_self : bool) : result (list (edge * Z)) :=
  if n =? 0 then Ok []
  else do table <- assign_anchors m (arange n);
       concat_res (anchor_row m k limit include_self table) (arange n).
End Anchor.
