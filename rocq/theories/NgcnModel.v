(* Model of src/modssc/transductive/methods/gnn/n_gcn.py: the dense adjacency matrix and its powers, the evaluation-time forward
   pass of N-GCN, fit and predict_proba.  Exact rationals in lowest terms replace float32; layers are arbitrary functions of a
   row.  Training and the preparation of the data are those of GnnModel (common.py). *)
From Coq Require Import QArith Qminmax.
From Verif Require Import Prelude QFacts TransModel GnnModel.
Local Open Scope Q_scope.
Local Open Scope list_scope.

(* _build_dense_adjacency (n_gcn.py lines 25-49), as a function of row and column *)
Definition add_edge (A : nat -> nat -> Q) (e : edge) : nat -> nat -> Q :=
  if (e_src e =? e_dst e)%Z then A
  else fun i j => if ((Z.of_nat i =? e_src e) && (Z.of_nat j =? e_dst e))%Z then A i j + e_w e else A i j.
Definition build_adjacency (symmetrize loops : bool) (E : list edge) : nat -> nat -> Q :=
  let A := fold_left add_edge E (fun _ _ => 0) in
  let A := if symmetrize then fun i j => Qmax (A i j) (A j i) else A in
  if loops then fun i j => A i j + (if Nat.eqb i j then 1 else 0) else A.
(* _normalize_adjacency (n_gcn.py lines 52-56); [rsqrt]: power(x, -0.5), [tiny]: 1e-12 *)
Definition normalise_adjacency (rsqrt : Q -> Q) (tiny : Q) (n : nat) (A : nat -> nat -> Q) : mat :=
  let s i := rsqrt (Qred (Qmax (Qsum (map (A i) (seq 0 n))) tiny)) in tabulate n n (fun i j => Qred (s i * A i j * s j)).
(* the product of an (n, n) and an (n, d) matrix *)
Definition dmm (n d : nat) (A X : mat) : mat := tabulate n d (fun i c => Qred (Qsum (map (fun j => entry A i j * entry X j c) (seq 0 n)))).
(* n_gcn.py lines 257-261: the identity and its products with the normalised matrix *)
Definition eye (n : nat) : mat := tabulate n n (fun i j => if Nat.eqb i j then 1 else 0).
Fixpoint adj_powers (n : nat) (A P : mat) (K : nat) : list mat :=
  match K with O => [] | S K => P :: adj_powers n A (dmm n n A P) K end.

(* _DenseGCN.forward (n_gcn.py lines 82-90) in evaluation mode; a layer: the width of its input, its linear part with bias *)
Definition layer := (nat * (list Q -> list Q))%type.
Fixpoint dense_gcn (n : nat) (P : mat) (lins : list layer) (z : mat) : mat :=
  match lins with
  | [] => z
  | (d, lin) :: r => let z1 := map lin (dmm n d P z) in dense_gcn n P r (match r with [] => z1 | _ => map (map relu) z1 end)
  end.
(* _NGCNNet.forward (n_gcn.py lines 140-157); out_lin is never built by fit, because gcn_out_dim is the number of classes *)
Inductive head := Fc (fc : list Q -> list Q) | Attention (att : list Q).
Record ngcn_weights := { ng_gcns : list (list layer); ng_head : head }.
Definition ngcn_outputs (n : nat) (powers : list mat) (K r : nat) (gcns : list (list layer)) (X : mat) : list mat :=
  flat_map (fun k => map (fun q => dense_gcn n (nth k powers []) (nth (k * r + q) gcns []) X) (seq 0 r)) (seq 0 K).
Definition ngcn_forward (softmax : list Q -> list Q) (n c : nat) (powers : list mat) (K r : nat) (w : ngcn_weights) (X : mat) : mat :=
  let outputs := ngcn_outputs n powers K r (ng_gcns w) X in
  match ng_head w with
  | Fc fc => map (fun i => fc (concat (map (fun o => nth i o []) outputs))) (seq 0 n)
  | Attention att => let ws := softmax att in
      tabulate n c (fun i j => Qred (Qsum (map (fun p : Q * mat => fst p * entry (snd p) i j) (combine ws outputs))))
  end.

Record ngcn_spec := { nk_K : Z; nk_r : Z; nk_layers : Z; nk_classifier_ok : bool; nk_loops : bool; nk_sym : bool; nk_max_epochs : Z; nk_patience : Z }.
Section Method.
Variables Op G : Type.
Variable rsqrt : Q -> Q.
Variable tiny : Q.
Variable init : nat -> Z -> G -> ngcn_weights * G.
Variable seeded : Z -> G.
Variable opt : ngcn_weights -> Op.
Variable step : list mat * mat -> ngcn_weights -> Op -> G -> list (nat * Z) -> ngcn_weights * Op * G.
Variable val_loss : list mat * mat -> ngcn_weights -> list (nat * Z) -> option Q.
Variable softmax : list Q -> list Q.
(* self._model, self._adj_powers, self._n_nodes, self._n_classes *)
Record ngcn_state := { nt_w : ngcn_weights; nt_powers : list mat; nt_n : Z; nt_c : Z }.
(* the powers that fit computes (n_gcn.py lines 234-261) *)
Definition ngcn_powers (sp : ngcn_spec) (d : node_data) : list mat :=
  let n := List.length (nd_X d) in
  let w := match nd_weight d with None => map (fun _ => 1) (nd_edges d) | Some l => l end in
  let A := normalise_adjacency rsqrt tiny n (build_adjacency (nk_sym sp) (nk_loops sp) (combine (nd_edges d) w)) in
  adj_powers n A (eye n) (Z.to_nat (nk_K sp)).
(* NGCNMethod.fit (n_gcn.py lines 200-290); the length of the weights is checked by prepare_data already *)
Definition ngcn_fit (sp : ngcn_spec) (seed : Z) (d : node_data) (g : G) : result (ngcn_state * G) :=
  if (nk_K sp <? 1)%Z then Err ValueError
  else if (nk_r sp <? 1)%Z then Err ValueError
  else if (nk_layers sp <? 1)%Z then Err ValueError
  else if negb (nk_classifier_ok sp) then Err ValueError
  else
    do p <- prepare_data rsqrt tiny d false NormSym;
    let powers := ngcn_powers sp d in
    let '(w, g) := init (nd_width d) (pp_classes p) g in
    let inp := (powers, pp_X p) in
    do r <- train_fullbatch ngcn_weights Op G (step inp) (val_loss inp) opt (pp_classes p) (pp_y p) (pp_train p) (pp_val p) (nk_max_epochs sp) (nk_patience sp) w (seeded seed);
    Ok ({| nt_w := tr_weights r; nt_powers := powers; nt_n := pp_n p; nt_c := pp_classes p |}, tr_gen r).
(* NGCNMethod.predict_proba (n_gcn.py lines 292-310) *)
Definition ngcn_predict (sp : ngcn_spec) (st : option ngcn_state) (d : node_data) : result mat :=
  match st with
  | None => Err RuntimeError
  | Some st =>
      do p <- prepare_data rsqrt tiny d false NormSym;
      if negb (pp_n p =? nt_n st)%Z then Err ValueError
      else Ok (map softmax (ngcn_forward softmax (Z.to_nat (nt_n st)) (Z.to_nat (nt_c st)) (nt_powers st) (Z.to_nat (nk_K sp)) (Z.to_nat (nk_r sp)) (nt_w st) (pp_X p)))
  end.
End Method.
