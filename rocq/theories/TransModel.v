(* Model of src/modssc/transductive: input checks, one-hot labels, label propagation, label spreading, the fixed-point
   solver, Laplace learning and conjugate gradient.  Floating-point arithmetic is replaced by exact rationals; the
   square root of the symmetric normalisation and the linear solver are parameters. *)
From Coq Require Import QArith Qminmax Qabs.
From Verif Require Import Prelude QFacts.
Local Open Scope Q_scope.
Local Open Scope list_scope.

(* ---- score matrices: a list of rows *)
Definition mat := list (list Q).
Definition entry (F : mat) (i c : nat) : Q := nth c (nth i F []) 0.
Definition tabulate (n k : nat) (f : nat -> nat -> Q) : mat := map (fun i => map (f i) (seq 0 k)) (seq 0 n).
Definition row_sum (F : mat) (i : nat) : Q := Qsum (nth i F []).

(* ---- graphs: (src, dst, weight), with A[dst, src] = weight *)
Definition edge := (Z * Z * Q)%type.
Definition e_src (e : edge) : Z := fst (fst e).
Definition e_dst (e : edge) : Z := snd (fst e).
Definition e_w (e : edge) : Q := snd e.
(* methods/utils.py:38-64 _validate_graph_inputs (an edge list is a (2, E) array by construction) *)
Definition validate_graph (n : Z) (edge_index : list (Z * Z)) (weight : option (list Q)) : result (list edge) :=
  let w := match weight with None => map (fun _ => 1) edge_index | Some l => l end in
  if negb (Nat.eqb (List.length w) (List.length edge_index)) then Err ValueError
  else if (n <=? 0)%Z then Err ValueError
  else if existsb (fun e => (fst e <? 0)%Z || (snd e <? 0)%Z) edge_index then Err ValueError
  else if existsb (fun e => (fst e >=? n)%Z || (snd e >=? n)%Z) edge_index then Err ValueError
  else Ok (combine edge_index w).
(* validation.py:14-78 validate_node_dataset, for integer labels and an (n, d) feature matrix with n = len(y) *)
Definition validate_node (y : list Z) (edge_index : list (Z * Z)) (masks : list (list bool)) : result unit :=
  let n := lenZ y in
  let classes := uniqueZ (filter (fun v => (v >=? 0)%Z) y) in
  if negb (if list_eq_dec Z.eq_dec classes (arange (lenZ classes)) then true else false) then Err TransductiveValidationError
  else if existsb (fun e => (fst e <? 0) || (snd e <? 0) || (fst e >=? n) || (snd e >=? n))%Z edge_index then Err TransductiveValidationError
  else if existsb (fun m => negb (lenZ m =? n)%Z) masks then Err TransductiveValidationError
  else Ok tt.

(* ---- labels: operators/clamp.py:6-23 labels_to_onehot *)
Definition onehot_row (k : nat) (v : Z) : list Q := map (fun c => if (v =? Z.of_nat c)%Z then 1 else 0) (seq 0 k).
Definition labels_to_onehot (y : list Z) (n_classes : Z) : result mat :=
  if (n_classes <=? 0)%Z then Err ValueError
  else if existsb (fun v => (v >=? n_classes)%Z) y then Err ValueError
  else Ok (map (onehot_row (Z.to_nat n_classes)) y).
(* x[mask] *)
Definition masked {A} (mask : list bool) (l : list A) : list A := map snd (filter fst (combine mask l)).
(* Y[~labeled_mask] = 0.0 *)
Definition zero_unlabelled (mask : list bool) (Y : mat) : mat :=
  map (fun p : bool * list Q => if fst p then snd p else map (fun _ => 0) (snd p)) (combine mask Y).
(* label_propagation.py:91-101, label_spreading.py:74-84: the number of classes *)
Definition n_distinct (l : list Z) : Z := lenZ (uniqueZ l).
Definition propagation_classes (y : list Z) (mask : list bool) : Z :=
  let valid := filter (fun v => (v >=? 0)%Z) y in
  let labelled := filter (fun v => (v >=? 0)%Z) (masked mask y) in
  Z.max 1 (if existsb (fun b => b) mask then match labelled with [] => n_distinct valid | _ => n_distinct labelled end
           else n_distinct valid).

(* ---- diffusion: methods/utils.py:67-128 *)
(* degrees_numpy: the weights arriving at a node *)
Definition degree (E : list edge) (i : Z) : Q := Qsum (map e_w (filter (fun e => (e_dst e =? i)%Z) E)).
Inductive norm_mode := Rw | Sym | NoNorm.
Section Diffusion.
Variable root : Q -> Q.                    (* np.sqrt *)
Variable eps : Q.                          (* 1e-12 *)
(* normalize_edge_weight_numpy; backends/numpy_backend.py:46-82 normalize_edges adds the mode none *)
Definition normalised (mode : norm_mode) (E : list edge) (e : edge) : Q :=
  let deg i := Qmax (degree E i) eps in
  match mode with
  | Rw => e_w e / deg (e_dst e)
  | Sym => e_w e / root (deg (e_src e) * deg (e_dst e))
  | NoNorm => e_w e
  end.
Definition normalise (mode : norm_mode) (E : list edge) : list edge := map (fun e => (e_src e, e_dst e, normalised mode E e)) E.
(* spmm_numpy: out[dst] += w * X[src] *)
Definition spmm (E : list edge) (n k : nat) (F : mat) : mat :=
  tabulate n k (fun i c => Qsum (map (fun e => e_w e * entry F (Z.to_nat (e_src e)) c) (filter (fun e => (e_dst e =? Z.of_nat i)%Z) E))).
(* F_new[labeled_mask] = Y[labeled_mask] *)
Definition clamp (mask : list bool) (Y F : mat) : mat :=
  map (fun p : bool * (list Q * list Q) => if fst p then fst (snd p) else snd (snd p)) (combine mask (combine Y F)).
(* rows divided by their sum when it is positive *)
Definition normalise_rows (F : mat) : mat :=
  map (fun r => let s := Qsum r in let s := if Qle_bool s 0 then 1 else s in map (fun x => x / s) r) F.
(* operators/clamp.py:35-37 row_normalize *)
Definition row_normalize (F : mat) : mat := map (fun r => map (fun x => x / Qmax (Qsum r) eps) r) F.
(* np.max(np.abs(G - F)) *)
Definition max_diff (G F : mat) : Q :=
  fold_right Qmax 0 (map (fun p : list Q * list Q => fold_right Qmax 0 (map (fun q : Q * Q => Qabs (fst q - snd q)) (combine (fst p) (snd p)))) (combine G F)).
Record diffusion := { d_F : mat; d_iter : Z; d_residual : option Q }.     (* residual None: infinity *)
(* the loop: at most [fuel] more rounds, [done] rounds done *)
Fixpoint iterate (distance : mat -> mat -> Q) (update : mat -> mat) (tol : Q) (max_iter : Z) (fuel : nat) (done : Z) (F : mat) (residual : option Q) : diffusion :=
  match fuel with
  | O => {| d_F := F; d_iter := max_iter; d_residual := residual |}
  | S fuel => let G := update F in
              let r := distance G F in
              if Qle_bool r tol then {| d_F := G; d_iter := (done + 1)%Z; d_residual := Some r |}
              else iterate distance update tol max_iter fuel (done + 1)%Z G (Some r)
  end.

Record propagation_spec := { ps_norm : norm_mode; ps_max_iter : Z; ps_tol : Q; ps_rows : bool }.
(* the part shared by label propagation and label spreading: the checked graph and the label matrix *)
Definition prepare (n : Z) (edge_index : list (Z * Z)) (weight : option (list Q)) (y : list Z) (mask : list bool) : result (list edge * (mat * Z)) :=
  do E <- validate_graph n edge_index weight;
  if negb (lenZ y =? n)%Z then Err ValueError
  else if negb (lenZ mask =? n)%Z then Err ValueError
  else let k := propagation_classes y mask in
       do Y <- labels_to_onehot y k;
       Ok (E, (zero_unlabelled mask Y, k)).
(* label_propagation.py:103-129, one round *)
Definition lp_update (E : list edge) (n k : nat) (mask : list bool) (Y : mat) (rows : bool) (F : mat) : mat :=
  let G := clamp mask Y (spmm E n k F) in
  if rows then normalise_rows G else G.
(* label_propagation.py:53-129 label_propagation_numpy *)
Definition label_propagation (n : Z) (edge_index : list (Z * Z)) (weight : option (list Q)) (y : list Z) (mask : list bool) (sp : propagation_spec) : result diffusion :=
  do ' (E, (Y, k)) <- prepare n edge_index weight y mask;
  Ok (iterate max_diff (lp_update (normalise (ps_norm sp) E) (Z.to_nat n) (Z.to_nat k) mask Y (ps_rows sp)) (ps_tol sp) (ps_max_iter sp) (Z.to_nat (ps_max_iter sp)) 0 Y None).
(* label_spreading.py:51-110 label_spreading_numpy *)
Definition blend (a : Q) (S Y : mat) : mat :=
  map (fun p : list Q * list Q => map (fun q : Q * Q => a * fst q + (1 - a) * snd q) (combine (fst p) (snd p))) (combine S Y).
Definition ls_update (E : list edge) (n k : nat) (a : Q) (Y : mat) (rows : bool) (F : mat) : mat :=
  let G := blend a (spmm E n k F) Y in
  if rows then normalise_rows G else G.
Definition label_spreading (n : Z) (edge_index : list (Z * Z)) (weight : option (list Q)) (y : list Z) (mask : list bool) (a : Q) (sp : propagation_spec) : result diffusion :=
  do E <- validate_graph n edge_index weight;
  if negb (lenZ y =? n)%Z then Err ValueError
  else if negb (lenZ mask =? n)%Z then Err ValueError
  else if negb (Qle_bool 0 a && negb (Qle_bool 1 a)) then Err ValueError
  else let k := propagation_classes y mask in
       do Y <- labels_to_onehot y k;
       let Y := zero_unlabelled mask Y in
       Ok (iterate max_diff (ls_update (normalise (ps_norm sp) E) (Z.to_nat n) (Z.to_nat k) a Y (ps_rows sp)) (ps_tol sp) (ps_max_iter sp) (Z.to_nat (ps_max_iter sp)) 0 Y None).
(* solvers/fixed_point.py:21-50 fixed_point_diffusion_numpy; np.linalg.norm is a parameter *)
Definition fp_update (E : list edge) (n k : nat) (a : Q) (mask : list bool) (Y : mat) (rows : bool) (F : mat) : mat :=
  let G := clamp mask Y (blend a (spmm E n k F) Y) in
  if rows then row_normalize G else G.
Definition fixed_point (norm : mat -> mat -> Q) (n k : nat) (E : list edge) (Y : mat) (mask : list bool) (a : Q) (sp : propagation_spec) : diffusion :=
  iterate norm (fp_update (normalise (ps_norm sp) E) n k a mask Y (ps_rows sp)) (ps_tol sp) (ps_max_iter sp) (Z.to_nat (ps_max_iter sp)) 0 Y None.
End Diffusion.

(* ---- Laplace learning: methods/classic/laplace_learning.py *)
(* methods/classic/common.py:6-9 infer_num_classes *)
Definition infer_num_classes (y : list Z) : Z :=
  Z.max 1 (match filter (fun v => (v >=? 0)%Z) y with [] => 1 | l => fold_right Z.max 0 l + 1 end)%Z.
(* laplace_learning.py lines 57-60: np.add.at(W, (dst, src), w) *)
Definition adjacency (E : list edge) (n : nat) : mat :=
  tabulate n n (fun i j => Qsum (map e_w (filter (fun e => (e_dst e =? Z.of_nat i)%Z && (e_src e =? Z.of_nat j)%Z) E))).
Inductive backend := Numpy | Torch.
(* laplace_learning.py; numpy, 64-66: L = -W; np.fill_diagonal(L, deg).  torch, 128-129: L = diag(deg) - W *)
Definition laplacian (b : backend) (W : mat) (n : nat) : mat :=
  tabulate n n (fun i j => match b with
                           | Numpy => if Nat.eqb i j then row_sum W i else - entry W i j
                           | Torch => (if Nat.eqb i j then row_sum W i else 0) - entry W i j
                           end).
(* np.flatnonzero *)
Definition flatnonzero (mask : list bool) : list nat := map fst (filter snd (combine (seq 0 (List.length mask)) mask)).
Definition submat (M : mat) (rows cols : list nat) : mat := map (fun i => map (fun j => entry M i j) cols) rows.
Definition matmul (A B : mat) (k : nat) : mat :=
  map (fun r => map (fun c => Qsum (map (fun p : Q * list Q => fst p * nth c (snd p) 0) (combine r B))) (seq 0 k)) A.
(* F[idx] = rows *)
Fixpoint scatter (F : mat) (idx : list nat) (rows : mat) : mat :=
  match idx, rows with
  | i :: idx, r :: rows => scatter (firstn i F ++ r :: skipn (S i) F) idx rows
  | _, _ => F
  end.
Section Laplace.
Variable solve : mat -> mat -> option mat.        (* np.linalg.solve; None: LinAlgError *)
(* laplace_learning.py lines 34-88 *)
Definition laplace_learning (b : backend) (n : Z) (edge_index : list (Z * Z)) (weight : option (list Q)) (y : list Z) (mask : list bool) : result mat :=
  do E <- validate_graph n edge_index weight;
  if negb (lenZ y =? n)%Z then Err ValueError
  else if negb (lenZ mask =? n)%Z then Err ValueError
  else if negb (existsb (fun b => b) mask) then Err ValueError
  else
    let k := infer_num_classes y in
    do Y <- labels_to_onehot y k;
    let Y := zero_unlabelled mask Y in
    let nn := Z.to_nat n in
    let W := adjacency E nn in
    let lab := flatnonzero mask in
    let unl := flatnonzero (map negb mask) in
    match unl with
    | [] => Ok Y
    | _ => match solve (submat (laplacian b W nn) unl unl) (matmul (submat W unl lab) (map (fun i => nth i Y []) lab) (Z.to_nat k)) with
           | None => Err ValueError
           | Some Fu => let F := tabulate nn (Z.to_nat k) (fun _ _ => 0) in
                        Ok (scatter (scatter F lab (map (fun i => nth i Y []) lab)) unl Fu)
           end
    end.
End Laplace.

(* ---- conjugate gradient: backends/numpy_backend.py:85-129 *)
Definition vec := list Q.
Definition vadd (x y : vec) : vec := map (fun p : Q * Q => fst p + snd p) (combine x y).
Definition vsub (x y : vec) : vec := map (fun p : Q * Q => fst p - snd p) (combine x y).
Definition vscale (a : Q) (x : vec) : vec := map (fun v => a * v) x.
Definition dot (x y : vec) : Q := Qsum (map (fun p : Q * Q => fst p * snd p) (combine x y)).
(* the reported residual norm is kept squared: no square roots *)
Record cg_info := { cg_iter : Z; cg_converged : bool; cg_residual2 : Q }.
(* residual_norm <= tol *)
Definition within (rs tol : Q) : bool := Qle_bool 0 tol && Qle_bool rs (tol * tol).
Section CG.
Variable matvec : vec -> vec.
Variable tol : Q.
Fixpoint cg_loop (fuel : nat) (k : Z) (x r p : vec) (rs : Q) (info : cg_info) : vec * cg_info :=
  match fuel with
  | O => (x, info)
  | S fuel =>
      let Ap := matvec p in
      let denom := dot p Ap in
      if Qeq_bool denom 0 then (x, info)
      else
        let alpha := rs / denom in
        let x' := vadd x (vscale alpha p) in
        let r' := vsub r (vscale alpha Ap) in
        let rs' := dot r' r' in
        if within rs' tol then (x', {| cg_iter := (k + 1)%Z; cg_converged := true; cg_residual2 := rs' |})
        else cg_loop fuel (k + 1)%Z x' r' (vadd r' (vscale (rs' / rs) p)) rs'
               {| cg_iter := (k + 1)%Z; cg_converged := false; cg_residual2 := rs' |}
  end.
Definition cg_solve (b : vec) (x0 : option vec) (max_iter : Z) : vec * cg_info :=
  let x := match x0 with None => map (fun _ => 0) b | Some x => x end in
  let r := vsub b (matvec x) in
  let rs := dot r r in
  if Qeq_bool rs 0 then (x, {| cg_iter := 0; cg_converged := true; cg_residual2 := 0 |})
  else cg_loop (Z.to_nat max_iter) 0 x r r rs {| cg_iter := 0; cg_converged := false; cg_residual2 := rs |}.
End CG.
