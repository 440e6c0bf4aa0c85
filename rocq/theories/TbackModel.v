(* Model of the graph operators of the two transductive backends (src/modssc/transductive/backends/numpy_backend.py, src/modssc/transductive/backends/torch_backend.py)
   and of their callers in src/modssc/transductive/operators.  An edge list is a list of pairs (source, destination); numbers are exact rationals; a matrix is the
   list of its rows, all of width k.  Conversions between arrays and tensors, devices and the rounding of float32 are not modelled. *)
From Coq Require Import QArith Qminmax String.
From Verif Require Import Prelude QFacts.
Local Open Scope string_scope.
Local Open Scope Z_scope.
Local Open Scope list_scope.
Local Notation length := List.length.

Definition matrix := list (list Q).
Definition zeros (n k : nat) : matrix := repeat (repeat 0%Q k) n.
(* edge weights: ones, or as many as there are edges (numpy_backend.py lines 9-15; torch_backend.py lines 43-48) *)
Definition ensure_edge_weight (w : option (list Q)) (E : list (Z * Z)) : result (list Q) :=
  match w with
  | None => Ok (map (fun _ => 1%Q) E)
  | Some l => if Nat.eqb (length l) (length E) then Ok l else Err ValueError
  end.
(* numpy and torch indexing a[i] of n rows: negative indices count from the end *)
Definition position (n : nat) (i : Z) : result nat :=
  if (i <? - Z.of_nat n) || (Z.of_nat n <=? i) then Err IndexError else Ok (Z.to_nat (if i <? 0 then i + Z.of_nat n else i)).
Fixpoint positions (n : nat) (l : list Z) : result (list nat) :=
  match l with [] => Ok [] | i :: r => do p <- position n i; do ps <- positions n r; Ok (p :: ps) end.
(* indices torch.sparse_coo_tensor and scatter_add_ accept *)
Definition inside (n : nat) (i : Z) : bool := (0 <=? i) && (i <? Z.of_nat n).
(* q.astype(int64): rounds towards zero *)
Definition trunc (q : Q) : Q := inject_Z (Z.quot (Qnum q) (Zpos (Qden q))).

Definition add_row (u v : list Q) : list Q := map (fun p => (fst p + snd p)%Q) (combine u v).
(* np.add.at(out, dst, rows): one row after the other *)
Definition add_at (out : matrix) (l : list (nat * list Q)) : matrix := fold_left (fun o p => update o (fst p) (fun row => add_row row (snd p))) l out.
Definition scale (w : Q) (row : list Q) : list Q := map (fun x => (w * x)%Q) row.
(* spmm of numpy_backend.py (lines 18-43) called by spmm_numpy (operators/spmm.py lines 11-23): weights take the dtype of X *)
Definition np_spmm (n k : nat) (E : list (Z * Z)) (weight : option (list Q)) (integer : bool) (X : matrix) : result matrix :=
  match E with
  | [] => Ok (zeros n k)
  | _ =>
    do w0 <- ensure_edge_weight weight E;
    let w := if integer then map trunc w0 else w0 in
    do src <- positions (length X) (map fst E);
    do dst <- positions n (map snd E);
    Ok (add_at (zeros n k) (combine dst (map (fun p => scale (fst p) (nth (snd p) X [])) (combine w src))))
  end.

(* torch.sparse_coo_tensor([dst, src], w, size=(n, n)).coalesce(): one entry per place, with the sum of its weights *)
Definition at_place (i j : nat) (e : Z * Z * Q) : bool := (snd (fst e) =? Z.of_nat i) && (fst (fst e) =? Z.of_nat j).
Definition coalesced (n : nat) (Ew : list (Z * Z * Q)) : list (nat * nat * Q) :=
  map (fun p : nat * nat => (p, Qsum (map snd (filter (at_place (fst p) (snd p)) Ew))))
      (filter (fun p : nat * nat => existsb (at_place (fst p) (snd p)) Ew) (list_prod (seq 0 n) (seq 0 n))).
(* torch.sparse.mm(A, X) *)
Definition sparse_mm (n k : nat) (A : list (nat * nat * Q)) (X : matrix) : matrix :=
  map (fun i => map (fun c => Qsum (map (fun a => (snd a * nth c (nth (snd (fst a)) X []) 0)%Q) (filter (fun a => Nat.eqb (fst (fst a)) i) A))) (seq 0 k)) (seq 0 n).
(* spmm of torch_backend.py (lines 28-64) called by spmm_torch (operators/spmm.py lines 26-47): X is made floating first *)
Definition torch_spmm (n k : nat) (E : list (Z * Z)) (weight : option (list Q)) (X : matrix) : result matrix :=
  match E with
  | [] => Ok (zeros n k)
  | _ =>
    do w <- ensure_edge_weight weight E;
    if negb (forallb (fun e => inside n (snd e) && inside n (fst e)) E) then Err RuntimeError
    else if negb (Nat.eqb (length X) n) then Err RuntimeError
    else Ok (sparse_mm n k (coalesced n (combine E w)) X)
  end.

Section Normalise.
Variable root : Q -> Q.                    (* np.sqrt, torch.sqrt *)
Variable eps : Q.                          (* 1e-12 *)
(* np.add.at(deg, dst, w) and deg.scatter_add_(0, dst, w) *)
Definition degrees (n : nat) (l : list (nat * Q)) : list Q := fold_left (fun d p => update d (fst p) (fun x => (x + snd p)%Q)) l (repeat 0%Q n).
Definition clamped (deg : list Q) (i : nat) : Q := Qmax (nth i deg 0%Q) eps.
(* normalize_edges of numpy_backend.py (lines 46-82) *)
Definition np_normalize (n : nat) (E : list (Z * Z)) (weight : option (list Q)) (mode : string) : result (list Q) :=
  do w <- ensure_edge_weight weight E;
  match E with
  | [] => Ok w
  | _ =>
    do dst <- positions n (map snd E);
    let deg := degrees n (combine dst w) in
    if String.eqb mode "none" then Ok w
    else if String.eqb mode "rw" then Ok (map (fun p => (fst p / clamped deg (snd p))%Q) (combine w dst))
    else if String.eqb mode "sym" then
      do src <- positions n (map fst E);
      Ok (map (fun p => (fst p / root (clamped deg (fst (snd p)) * clamped deg (snd (snd p))))%Q) (combine w (combine dst src)))
    else Err ValueError
  end.
(* normalize_edges of torch_backend.py (lines 67-105) *)
Definition torch_normalize (n : nat) (E : list (Z * Z)) (weight : option (list Q)) (mode : string) : result (list Q) :=
  do w <- ensure_edge_weight weight E;
  match E with
  | [] => Ok w
  | _ =>
    if negb (forallb (fun e => inside n (snd e)) E) then Err RuntimeError else
    let dst := map (fun e : Z * Z => Z.to_nat (snd e)) E in
    let deg := degrees n (combine dst w) in
    if String.eqb mode "none" then Ok w
    else if String.eqb mode "rw" then Ok (map (fun p => (fst p / clamped deg (snd p))%Q) (combine w dst))
    else if String.eqb mode "sym" then
      do src <- positions n (map fst E);
      Ok (map (fun p => (fst p / root (clamped deg (fst (snd p)) * clamped deg (snd (snd p))))%Q) (combine w (combine dst src)))
    else Err ValueError
  end.

Definition sub_row (u v : list Q) : list Q := map (fun p => (fst p - snd p)%Q) (combine u v).
Definition sub (A B : matrix) : matrix := map (fun p => sub_row (fst p) (snd p)) (combine A B).
(* laplacian_matvec_numpy (operators/laplacian.py lines 15-31): x - S x for x of n rows; x is made floating first *)
Definition np_laplacian (n k : nat) (E : list (Z * Z)) (weight : option (list Q)) (kind : string) (X : matrix) : result matrix :=
  do w <- np_normalize n E weight kind;
  do S <- np_spmm n k E (Some w) false X;
  Ok (sub X S).
(* laplacian_matvec_torch (operators/laplacian.py lines 34-60) *)
Definition torch_laplacian (n k : nat) (E : list (Z * Z)) (weight : option (list Q)) (kind : string) (X : matrix) : result matrix :=
  do w <- torch_normalize n E weight kind;
  do S <- torch_spmm n k E (Some w) X;
  Ok (sub X S).
End Normalise.
