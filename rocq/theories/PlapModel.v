(* Model of src/modssc/transductive/methods/pde/p_laplace_learning.py.  Exact rationals replace floating point; np.sqrt,
   the power |x| ** (p - 2) and np.exp are parameters.  Graphs, labels and conjugate gradient are those of TransModel.v. *)
From Coq Require Import QArith Qminmax Qabs.
From Verif Require Import Prelude QFacts TransModel PoissonModel.
Local Open Scope Q_scope.
Local Open Scope list_scope.

(* ---- edges *)
(* lines 19-33 _coalesce_edges: one edge for every pair of endpoints, in the order of the keys *)
Definition key (n : Z) (e : edge) : Z := (e_src e * n + e_dst e)%Z.
Definition coalesce (n : Z) (E : list edge) : list edge :=
  map (fun k => ((k / n)%Z, (k mod n)%Z, Qsum (map e_w (filter (fun e => (key n e =? k)%Z) E)))) (uniqueZ (map (key n) E)).
(* lines 36-42 _symmetrize_edges, and 89-94 *)
Definition plap_edges (n : Z) (symmetrize zero_diagonal : bool) (E : list edge) : list edge :=
  let E := if symmetrize then coalesce n (E ++ map (fun e => (e_dst e, e_src e, e_w e)) E) else E in
  if zero_diagonal then without_loops E else E.

(* ---- positions among the labelled and among the unlabelled nodes: lines 115-139 *)
(* map_u[i], with None for -1 *)
Fixpoint position (idx : list nat) (i : nat) : option nat :=
  match idx with
  | [] => None
  | j :: r => if Nat.eqb j i then Some O else option_map S (position r i)
  end.
(* an edge between positions: (source, destination, weight) *)
Definition arc := (nat * nat * Q)%type.
Definition a_src (e : arc) : nat := fst (fst e).
Definition a_dst (e : arc) : nat := snd (fst e).
Definition a_w (e : arc) : Q := snd e.
(* the edges from a node of the first list to one of the second *)
Definition arcs (from into : list nat) (E : list edge) : list arc :=
  flat_map (fun e => match position from (Z.to_nat (e_src e)), position into (Z.to_nat (e_dst e)) with
                     | Some a, Some b => [(a, b, e_w e)]
                     | _, _ => []
                     end) E.

(* ---- the linear systems: lines 149-180 solve_linear; np.add.at adds up over the edges into a position *)
Definition into (A : list arc) (b : nat) (f : arc -> Q) : Q := Qsum (map f (filter (fun e => Nat.eqb (a_dst e) b) A)).
Definition diagonal (eps : Q) (uu ul : list arc) (b : nat) : Q := into uu b a_w + into ul b a_w + eps.
Definition plap_matvec (eps : Q) (uu ul : list arc) (m : nat) (x : vec) : vec :=
  map (fun b => diagonal eps uu ul b * nth b x 0 - into uu b (fun e => a_w e * nth (a_src e) x 0)) (seq 0 m).
Definition plap_rhs (ul : list arc) (g : vec) (m : nat) : vec :=
  map (fun b => into ul b (fun e => a_w e * nth (a_src e) g 0) - 0) (seq 0 m).

Record plap_spec := { pl_p : Q; pl_max_iter : Z; pl_tol : Q; pl_cg_tol : Q; pl_cg_max_iter : Z; pl_eps : Q; pl_symmetrize : bool; pl_zero_diagonal : bool }.
Record plap_result := { pl_F : mat; pl_iter : Z; pl_residual : Q }.

Section Plap.
Variable root : Q -> Q.                    (* np.sqrt, of the squared residual *)
Variable power : Q -> Q -> Q.              (* power e x = x ** e *)
Variable ex : Q -> Q.                      (* np.exp *)
Variable tiny : Q.                         (* 1e-12 *)
Variable sp : plap_spec.
Definition solve_linear (uu ul : list arc) (g : vec) (m : nat) : vec * cg_info :=
  cg_solve (plap_matvec (pl_eps sp) uu ul m) (pl_cg_tol sp) (plap_rhs ul g m) None (pl_cg_max_iter sp).
(* lines 191-195: the weights at the current scores *)
Definition weights_uu (u : vec) (uu : list arc) : list arc :=
  map (fun e => (a_src e, a_dst e, a_w e * power (pl_p sp - 2) (Qabs (nth (a_src e) u 0 - nth (a_dst e) u 0)))) uu.
Definition weights_ul (u g : vec) (ul : list arc) : list arc :=
  map (fun e => (a_src e, a_dst e, a_w e * power (pl_p sp - 2) (Qabs (nth (a_dst e) u 0 - nth (a_src e) g 0)))) ul.
(* lines 190-207: Newton's method; n_iter and the residual are those of the last round *)
Fixpoint newton (uu ul : list arc) (g : vec) (m : nat) (fuel : nat) (it : Z) (u : vec) (n_iter : Z) (residual : Q) : vec * Z * Q :=
  match fuel with
  | O => (u, n_iter, residual)
  | S fuel =>
      let v := fst (solve_linear (weights_uu u uu) (weights_ul u g ul) g m) in
      let p := pl_p sp in
      let u' := vadd (vscale ((p - 2) / (p - 1)) u) (vscale (1 / (p - 1)) v) in
      let residual := fold_right Qmax 0 (map Qabs (vsub u' u)) in
      if Qle_bool residual (pl_tol sp) then (u', (it + 1)%Z, residual)
      else newton uu ul g m fuel (it + 1)%Z u' (it + 1)%Z residual
  end.
(* lines 182-214, one class *)
Definition plap_class (uu ul : list arc) (g : vec) (m : nat) : vec * Z * Q :=
  let (u, info) := solve_linear uu ul g m in
  if negb (Qle_bool (pl_p sp) 2) then newton uu ul g m (Z.to_nat (pl_max_iter sp)) 0 u (cg_iter info) (root (cg_residual2 info))
  else (u, cg_iter info, root (cg_residual2 info)).
(* lines 222-224: the softmax of a row *)
Definition row_max (r : list Q) : Q := match r with [] => 0 | a :: r => fold_right Qmax a r end.
Definition softmax (r : list Q) : list Q :=
  let e := map (fun x => ex (x - row_max r)) r in map (fun x => x / Qmax (Qsum e) tiny) e.
(* lines 69-228 p_laplace_learning_numpy; lines 214-226 write every row once *)
Definition p_laplace (n : Z) (edge_index : list (Z * Z)) (weight : option (list Q)) (y : list Z) (mask : list bool) : result plap_result :=
  if negb (Qle_bool 2 (pl_p sp)) then Err ValueError
  else
    do E0 <- validate_graph n edge_index weight;
    let E := plap_edges n (pl_symmetrize sp) (pl_zero_diagonal sp) E0 in
    if negb (lenZ y =? n)%Z then Err ValueError
    else if negb (lenZ mask =? n)%Z then Err ValueError
    else if negb (existsb (fun b => b) mask) then Err ValueError
    else match filter (fun v => (v >=? 0)%Z) y with
    | [] => Err ValueError
    | valid =>
      let kz := (fold_right Z.max 0 valid + 1)%Z in
      let shown := filter (fun v => (v >=? 0)%Z) (masked mask y) in
      if existsb (fun c => (countZ c shown =? 0)%Z) (arange kz) then Err ValueError
      else
        do Y <- labels_to_onehot y kz;
        let Y := zero_unlabelled mask Y in
        let us := flatnonzero (map negb mask) in
        let ls := flatnonzero mask in
        match us with
        | [] => Ok {| pl_F := Y; pl_iter := 0; pl_residual := 0 |}
        | _ =>
          let uu := arcs us us E in
          let ul := arcs ls us E in
          match ul with
          | [] => Err ValueError
          | _ =>
            let nn := Z.to_nat n in let k := Z.to_nat kz in let m := List.length us in
            let runs := map (fun c => plap_class uu ul (map (fun i => entry Y i c) ls) m) (seq 0 k) in
            let row i := match position us i with
                         | Some b => softmax (map (fun r => nth b (fst (fst r)) 0) runs)
                         | None => nth i Y []
                         end in
            Ok {| pl_F := map row (seq 0 nn);
                  pl_iter := fold_left Z.max (map (fun r => snd (fst r)) runs) 0%Z;
                  pl_residual := fold_left Qmax (map snd runs) 0 |}
          end
        end
    end.
End Plap.
