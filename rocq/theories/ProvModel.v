(* Model of the class filters and limits of data providers (src/modssc/data_loader/providers/common.py, torchvision.py, hf.py) and of
   the graphs of the PyG provider (src/modssc/data_loader/providers/pyg.py). *)
From Coq Require Import String.
From Verif Require Import Prelude.
Local Open Scope string_scope.
Local Open Scope Z_scope.
Local Open Scope list_scope.
Local Notation length := List.length.

(* x[idx] of an array with non-negative and negative positions; IndexError beyond *)
Definition at_z {A} (l : list A) (i : Z) : result A :=
  let j := if i <? 0 then i + Z.of_nat (length l) else i in
  if j <? 0 then Err IndexError else match nth_error l (Z.to_nat j) with Some a => Ok a | None => Err IndexError end.
Fixpoint gather {A} (l : list A) (idx : list Z) : result (list A) :=
  match idx with [] => Ok [] | i :: r => do a <- at_z l i; do b <- gather l r; Ok (a :: b) end.
(* x[mask]: the mask must be as long as the array *)
Fixpoint masked {A} (l : list A) (m : list bool) : result (list A) :=
  match l, m with
  | [], [] => Ok []
  | a :: l', b :: m' => do r <- masked l' m'; Ok (if b then a :: r else r)
  | _, _ => Err IndexError
  end.

Section Providers.
(* np.random.default_rng(seed).shuffle of n positions: the order they come in *)
Variable shuffle : Z -> nat -> list nat.
Context {A : Type}.
Definition shuffled (seed : Z) (idx : list Z) : list Z := map (fun i => nth i idx 0) (shuffle seed (length idx)).

(* apply_class_filter (common.py lines 18-24), on integer labels *)
Definition apply_class_filter (cf : option (list Z)) (X : list A) (y : list Z) : result (list A * list Z) :=
  match cf with
  | None => Ok (X, y)
  | Some c => let mask := map (fun l => memZ l c) y in do X' <- masked X mask; do y' <- masked y mask; Ok (X', y')
  end.
(* limit_samples (common.py lines 27-41) *)
Definition limit_samples (max : option Z) (seed : option Z) (X : list A) (y : list Z) : result (list A * list Z) :=
  match max with
  | None => Ok (X, y)
  | Some m =>
    let n := length y in
    if (m <=? 0) || Nat.eqb n 0 then Ok ([], [])
    else
      let take := Nat.min n (Z.to_nat m) in
      let idx := arange (Z.of_nat n) in
      let idx := match seed with Some s => shuffled s idx | None => idx end in
      do X' <- gather X (firstn take idx);
      do y' <- gather y (firstn take idx);
      Ok (X', y')
  end.
(* apply_limits (common.py lines 44-54) *)
Definition apply_limits (cf : option (list Z)) (max seed : option Z) (X : list A) (y : list Z) : result (list A * list Z) :=
  do ' (X', y') <- apply_class_filter cf X y; limit_samples max seed X' y'.
(* the two splits (torchvision.py lines 77-90; hf.py lines 107-118): the test split has the next
   seed *)
Definition load_splits (cf : option (list Z)) (max_train max_test seed : option Z) (train : list A * list Z) (test : option (list A * list Z))
    : result ((list A * list Z) * option (list A * list Z)) :=
  do tr <- apply_limits cf max_train seed (fst train) (snd train);
  match test with
  | None => Ok (tr, None)
  | Some t => do te <- apply_limits cf max_test (match seed with Some s => Some (s + 1) | None => None end) (fst t) (snd t); Ok (tr, Some te)
  end.

(* ----- graphs ----- *)
(* Labels and masks by rows: one entry per row for arrays of one dimension.  edge_index by rows as well. *)
Record graph := { g_x : option (list A); g_y : option (list (list Z)); g_edges : option (list (list Z)); g_masks : list (string * list (list bool)) }.
Record subgraph := { s_x : option (list A); s_y : option (list (list Z)); s_edges : option (list (Z * Z)); s_masks : list (string * list bool) }.
Definition singles {B} (l : list B) : list (list B) := map (fun b => [b]) l.
(* _pad_labels (pyg.py lines 167-185), for integer labels; more values than nodes do not fit *)
Definition pad_labels (y : list (list Z)) (n : nat) : result (list (list Z)) :=
  let flat := concat y in
  if Nat.ltb n (length flat) then Err ValueError else Ok (singles (flat ++ repeat (-1) (n - length flat))).
(* np.where(np.isin(y, filter))[0] (pyg.py line 127): the row of each match *)
Definition where_isin (y : list (list Z)) (c : list Z) : list Z :=
  concat (map (fun p => repeat (Z.of_nat (fst p)) (length (filter (fun l => memZ l c) (snd p)))) (combine (seq 0 (length y)) y)).
(* idx[:m] *)
Definition upto {B} (m : Z) (l : list B) : list B := firstn (if m <? 0 then Z.to_nat (Z.of_nat (length l) + m) else Z.to_nat m) l.
(* _as_edge_index of two-dimensional arrays (pyg.py lines 188-196) with the two rows taken of it (pyg.py lines 221-223): src and dst *)
Definition rows_of_edges (ei : list (list Z)) : result (list Z * list Z) :=
  match ei with
  | [a; b] => Ok (a, b)
  | _ =>
    if forallb (fun r => Nat.eqb (length r) 2) ei && negb (Nat.eqb (length ei) 0) then Ok (map (fun r => nth 0 r 0) ei, map (fun r => nth 1 r 0) ei)
    else match ei with a :: b :: _ => Ok (a, b) | _ => Err IndexError end
  end.
(* mapping[keep_idx] = arange (pyg.py lines 216-217): the last of equal positions stays; keep_idx is never negative *)
Fixpoint set_all (m : list Z) (idx : list Z) (k : Z) : result (list Z) :=
  match idx with
  | [] => Ok m
  | i :: r => if (Z.to_nat i <? length m)%nat then set_all (firstn (Z.to_nat i) m ++ k :: skipn (S (Z.to_nat i)) m) r (k + 1) else Err IndexError
  end.
(* the kept edges under their new numbers (pyg.py lines 219-228) *)
Definition kept_edges (mapping : list Z) (e : option (list (list Z))) : result (option (list (Z * Z))) :=
  match e with
  | None => Ok None
  | Some ei =>
    if Nat.eqb (length (concat ei)) 0 then Ok None
    else
      do ' (src, dst) <- rows_of_edges ei;
      do ms <- gather mapping src;
      do md <- gather mapping dst;
      Ok (Some (filter (fun p => (0 <=? fst p) && (0 <=? snd p)) (combine ms md)))
  end.
(* one mask (pyg.py lines 231-237) *)
Definition mask_of (n : nat) (keep : list Z) (m : list (list bool)) : result (list bool) :=
  let arr := concat m in
  let arr := if Nat.ltb (length arr) n then arr ++ repeat false (n - length arr) else arr in
  gather arr keep.
Fixpoint masks_of (n : nat) (keep : list Z) (ms : list (string * list (list bool))) : result (list (string * list bool)) :=
  match ms with [] => Ok [] | (k, m) :: r => do m' <- mask_of n keep m; do r' <- masks_of n keep r; Ok ((k, m') :: r') end.
Definition opt_rows {B} (o : option (list B)) : nat := match o with Some l => length l | None => 0%nat end.
Definition opt_gather {B} (o : option (list B)) (keep : list Z) : result (option (list B)) := match o with None => Ok None | Some l => do l' <- gather l keep; Ok (Some l') end.
(* _subset_graph (pyg.py lines 199-241) *)
Definition subset_graph (g : graph) (keep : list Z) : result subgraph :=
  match keep with
  | [] => Ok {| s_x := match g_x g with Some _ => Some [] | None => None end; s_y := match g_y g with Some _ => Some [] | None => None end; s_edges := None; s_masks := [] |}
  | _ =>
    let n := Nat.max (opt_rows (g_x g)) (opt_rows (g_y g)) in
    do mapping <- set_all (repeat (-1) n) keep 0;
    do e <- kept_edges mapping (g_edges g);
    do ms <- masks_of n keep (g_masks g);
    do x <- opt_gather (g_x g) keep;
    do y <- opt_gather (g_y g) keep;
    Ok {| s_x := x; s_y := y; s_edges := e; s_masks := ms |}
  end.
(* the choice of nodes and the subgraph (pyg.py lines 118-141) *)

Definition load_graph (g : graph) (cf : option (list Z)) (max seed : option Z) : result subgraph :=
  let n := match g_x g with Some x => length x | None => opt_rows (g_y g) end in
  do y <- match g_y g with Some y => if Nat.ltb (length y) n then do y' <- pad_labels y n; Ok (Some y') else Ok (Some y) | None => Ok None end;
  let idx := match cf, y with Some c, Some y => where_isin y c | _, _ => arange (Z.of_nat n) end in
  let idx := match max with
             | Some m => if m <? Z.of_nat (length idx) then sortZ (upto m (match seed with Some s => shuffled s idx | None => idx end)) else idx
             | None => idx
             end in
  subset_graph {| g_x := g_x g; g_y := y; g_edges := g_edges g; g_masks := g_masks g |} idx.
End Providers.
Arguments graph : clear implicits.
Arguments subgraph : clear implicits.
