(* Model of src/modssc/transductive/methods/pde/poisson_learning.py (numpy backend) and poisson_mbo.py.  Exact rationals
   replace floating point; np.sqrt and np.argmax are parameters.  Graphs, labels and conjugate gradient are those of
   TransModel.v; a residual norm is kept squared. *)
From Coq Require Import QArith Qminmax Qabs.
From Verif Require Import Prelude QFacts TransModel.
Local Open Scope Q_scope.
Local Open Scope list_scope.

(* ---- poisson_learning.py *)
(* lines 58-84 _build_sources; Y is already 0 on the unlabelled rows *)
Definition column (n : nat) (M : mat) (c : nat) : vec := map (fun i => entry M i c) (seq 0 n).
Definition sources (n k : nat) (Y : mat) (mask : list bool) (center : bool) : mat :=
  tabulate n k (fun i c =>
    if center then
      let pi := Qmean (masked mask (column n Y c)) in
      (if nth i mask false then 1 else 0) * (entry Y i c - pi)
    else
      let b j := (if nth j mask false then 1 else 0) * entry Y j c in
      b i - Qmean (map b (seq 0 n))).
Record poisson_spec := { pn_kind : norm_mode; pn_eps : Q; pn_center : bool; pn_tol : Q; pn_max_iter : Z }.
Record poisson_result := { pr_F : mat; pr_iter : Z; pr_residual2 : Q }.
Section Poisson.
Variable root : Q -> Q.                    (* np.sqrt *)
Variable tiny : Q.                         (* 1e-12, in normalize_edges *)
(* operators/laplacian.py:15-32 laplacian_matvec_numpy: x - S x with the normalised weights *)
Definition laplacian_matvec (kind : norm_mode) (n : nat) (E : list edge) (x : vec) : vec :=
  map (fun i => nth i x 0 - Qsum (map (fun e => normalised root tiny kind E e * nth (Z.to_nat (e_src e)) x 0) (filter (fun e => (e_dst e =? Z.of_nat i)%Z) E))) (seq 0 n).
(* poisson_learning.py:132-142 matvec_A *)
Definition poisson_matvec (kind : norm_mode) (eps : Q) (n : nat) (E : list edge) (x : vec) : vec :=
  let out := laplacian_matvec kind n E x in
  let out := if Qeq_bool eps 0 then out else vadd out (vscale eps x) in
  vadd out (map (fun _ => Qmean x * 1) (seq 0 n)).
(* poisson_learning.py:87-155 poisson_learning_numpy; the number of classes counts the different labelled values, line 115-116 *)
Definition poisson_learning (n : Z) (edge_index : list (Z * Z)) (weight : option (list Q)) (y : list Z) (mask : list bool) (sp : poisson_spec) : result poisson_result :=
  do E <- validate_graph n edge_index weight;
  if negb (lenZ y =? n)%Z then Err ValueError
  else if negb (lenZ mask =? n)%Z then Err ValueError
  else if negb (existsb (fun b => b) mask) then Err ValueError
  else
    let k := n_distinct (masked mask y) in
    do Y <- labels_to_onehot y k;
    let Y := zero_unlabelled mask Y in
    let nn := Z.to_nat n in let kk := Z.to_nat k in
    let B := sources nn kk Y mask (pn_center sp) in
    let runs := map (fun c => cg_solve (poisson_matvec (pn_kind sp) (pn_eps sp) nn E) (pn_tol sp) (column nn B c) None (pn_max_iter sp)) (seq 0 kk) in
    Ok {| pr_F := tabulate nn kk (fun i c => nth i (fst (nth c runs ([], {| cg_iter := 0; cg_converged := false; cg_residual2 := 0 |}))) 0);
          pr_iter := fold_left Z.max (map (fun r => cg_iter (snd r)) runs) 0%Z;
          pr_residual2 := fold_left Qmax (map (fun r => cg_residual2 (snd r)) runs) 0 |}.
End Poisson.

(* ---- poisson_mbo.py *)
(* lines 23-33 _symmetrize_edges, and 105-110 *)
Definition without_loops (E : list edge) : list edge := filter (fun e => negb (e_src e =? e_dst e)%Z) E.
Definition mbo_edges (symmetrize zero_diagonal : bool) (E : list edge) : list edge :=
  let E := if symmetrize then E ++ map (fun e => (e_dst e, e_src e, e_w e)) E else E in
  if zero_diagonal then without_loops E else E.
Inductive b_strategy := Uniform | Labeled | TrueLabels.
Record mbo_spec := { mb_T : Z; mb_inner : Z; mb_outer : Z; mb_mu : Q; mb_dtau : Q; mb_smin : Q; mb_smax : Q; mb_volume : Z;
                     mb_strategy : b_strategy; mb_b : option (list Q); mb_symmetrize : bool; mb_zero_diagonal : bool }.
Section Mbo.
Variable argmax : list Q -> Z.             (* np.argmax of a row *)
(* lines 36-40 _proj_vertices *)
Definition proj_vertices (U : mat) : mat := map (fun r => map (fun c => if (argmax r =? Z.of_nat c)%Z then 1 else 0) (seq 0 (List.length r))) U.
(* lines 43-62 _build_b_matrix *)
Definition y_bar (n k : nat) (Y : mat) (mask : list bool) : list Q := map (fun c => Qmean (masked mask (column n Y c))) (seq 0 k).
Definition b_matrix (n k : nat) (Y : mat) (mask : list bool) (ybar : list Q) : mat :=
  tabulate n k (fun i c => if nth i mask false then entry Y i c - nth c ybar 0 else 0).
(* lines 65-87 _build_b_prior *)
Definition b_prior (y : list Z) (k : nat) (st : b_strategy) (ybar : list Q) : list Q :=
  match st with
  | Uniform => map (fun _ => 1 / inject_Z (Z.of_nat k)) (seq 0 k)
  | Labeled => ybar
  | TrueLabels => let valid := filter (fun v => (v >=? 0)%Z) y in
                  map (fun c => inject_Z (countZ (Z.of_nat c) valid) / inject_Z (lenZ valid)) (seq 0 k)
  end.
(* lines 126-142: a given b is checked and scaled to sum 1 *)
Definition chosen_b (y : list Z) (k : nat) (sp : mbo_spec) (ybar : list Q) : result (list Q) :=
  match mb_b sp with
  | Some b => if negb (Nat.eqb (List.length b) k) then Err ValueError
              else if existsb (fun x => negb (Qle_bool 0 x)) b then Err ValueError
              else if Qle_bool (Qsum b) 0 then Err ValueError
              else Ok (map (fun x => x / Qsum b) b)
  | None => Ok (b_prior y k (mb_strategy sp) ybar)
  end.
(* LU = deg[:, None] * U - W U: lines 157-158, 170-171 *)
Definition mbo_laplacian (n k : nat) (E : list edge) (U : mat) : mat :=
  let WU := spmm E n k U in tabulate n k (fun i c => degree E (Z.of_nat i) * entry U i c - entry WU i c).
(* lines 148-161, one round of the Poisson iteration; the residual is np.max(np.abs(update)) *)
Definition max_abs (M : mat) : Q := fold_right Qmax 0 (map (fun r => fold_right Qmax 0 (map Qabs r)) M).
Definition poisson_step (n k : nat) (E : list edge) (B : mat) (s : mat * option Q) : mat * option Q :=
  let U := fst s in
  let LU := mbo_laplacian n k E U in
  let inv i := let d := degree E (Z.of_nat i) in if Qle_bool d 0 then 0 else 1 / d in
  let update := tabulate n k (fun i c => inv i * (entry B i c - entry LU i c)) in
  (tabulate n k (fun i c => entry U i c + entry update i c), Some (max_abs update)).
(* lines 169-174, one inner round *)
Definition inner_step (n k : nat) (E : list edge) (B : mat) (dt mu : Q) (s : mat * option Q) : mat * option Q :=
  let U := fst s in
  let LU := mbo_laplacian n k E U in
  let update := tabulate n k (fun i c => - dt * (entry LU i c - mu * entry B i c)) in
  (tabulate n k (fun i c => entry U i c + entry update i c), Some (max_abs update)).
(* U * s[None, :] *)
Definition scale_columns (n k : nat) (U : mat) (s : list Q) : mat := tabulate n k (fun i c => entry U i c * nth c s 0).
(* lines 176-181, one round of the volume loop; np.clip(s, smin, smax) = minimum(maximum(s, smin), smax) *)
Definition volume_step (n k : nat) (U : mat) (b : list Q) (dtau smin smax : Q) (s : list Q) : list Q :=
  let V := proj_vertices (scale_columns n k U s) in
  map (fun c => Qmin (Qmax (nth c s 0 + dtau * (nth c b 0 - Qmean (column n V c))) smin) smax) (seq 0 k).
(* lines 168-183, one outer round *)
Definition outer_step (n k : nat) (E : list edge) (B : mat) (b : list Q) (dt : Q) (sp : mbo_spec) (st : mat * option Q) : mat * option Q :=
  let st := Nat.iter (Z.to_nat (mb_inner sp)) (inner_step n k E B dt (mb_mu sp)) st in
  let s := Nat.iter (Z.to_nat (mb_volume sp)) (volume_step n k (fst st) b (mb_dtau sp) (mb_smin sp) (mb_smax sp)) (map (fun _ => 1) (seq 0 k)) in
  (proj_vertices (scale_columns n k (fst st) s), snd st).
(* lines 90-186 poisson_mbo_numpy *)
Definition poisson_mbo (n : Z) (edge_index : list (Z * Z)) (weight : option (list Q)) (y : list Z) (mask : list bool) (sp : mbo_spec) : result diffusion :=
  do E0 <- validate_graph n edge_index weight;
  let E := mbo_edges (mb_symmetrize sp) (mb_zero_diagonal sp) E0 in
  if negb (lenZ y =? n)%Z then Err ValueError
  else if negb (lenZ mask =? n)%Z then Err ValueError
  else match filter (fun v => (v >=? 0)%Z) y with
  | [] => Err ValueError
  | valid =>
    let kz := (fold_right Z.max 0 valid + 1)%Z in
    do Y <- labels_to_onehot y kz;
    let Y := zero_unlabelled mask Y in
    let nn := Z.to_nat n in let k := Z.to_nat kz in
    if negb (existsb (fun b => b) mask) then Err ValueError
    else
      let ybar := y_bar nn k Y mask in
      if existsb (fun x => Qle_bool x 0) ybar then Err ValueError
      else
        let B := b_matrix nn k Y mask ybar in
        do b <- chosen_b y k sp ybar;
        let max_deg := fold_right Qmax 0 (map (fun i => degree E (Z.of_nat i)) (seq 0 nn)) in
        if Qle_bool max_deg 0 then Err ValueError
        else
          let st := Nat.iter (Z.to_nat (mb_T sp)) (poisson_step nn k E B) (tabulate nn k (fun _ _ => 0), None) in
          let U := tabulate nn k (fun i c => entry (fst st) i c * (nth c b 0 / nth c ybar 0)) in
          let st := Nat.iter (Z.to_nat (mb_outer sp)) (outer_step nn k E B b (1 / max_deg) sp) (U, snd st) in
          Ok {| d_F := fst st; d_iter := (mb_T sp + mb_outer sp * mb_inner sp)%Z; d_residual := snd st |}
  end.
End Mbo.
