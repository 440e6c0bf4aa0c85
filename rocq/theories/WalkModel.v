(* Model of two walk-based transductive methods of src/modssc/transductive/methods/classic: the lazy random walk and
   dynamic label propagation.  Exact rationals replace float32; np.sqrt, np.linalg.solve and np.argpartition are
   parameters.  The graph, labels and masks are those of TransModel.v. *)
From Coq Require Import QArith Qminmax Qabs.
From Verif Require Import Prelude QFacts TransModel.
Local Open Scope Q_scope.
Local Open Scope list_scope.

(* classic/common.py:12-21 build_affinity_matrix: W = 0.5 * (W + W.T); np.fill_diagonal(W, 0.0) *)
Definition affinity (E : list edge) (n : nat) : mat :=
  let W := adjacency E n in
  tabulate n n (fun i j => if Nat.eqb i j then 0 else (1 # 2) * (entry W i j + entry W j i)).
(* the input checks of both methods: lazy_random_walk.py:71-81, dynamic_label_propagation.py:71-81 *)
Definition checked (n : Z) (edge_index : list (Z * Z)) (weight : option (list Q)) (y : list Z) (mask : list bool) : result (list edge) :=
  do E <- validate_graph n edge_index weight;
  if negb (lenZ y =? n)%Z then Err ValueError
  else if negb (lenZ mask =? n)%Z then Err ValueError
  else if negb (existsb (fun b => b) mask) then Err ValueError
  else Ok E.
(* deg = W.sum(axis=1); np.any(deg <= 0): lazy_random_walk.py:87-90, dynamic_label_propagation.py:87-90 *)
Definition isolated (W : mat) : bool := existsb (fun r => Qle_bool (Qsum r) 0) W.

(* ---- lazy_random_walk.py *)
(* lines 33-54 _encode_binary, the two classes (full_y is never passed) *)
Definition binary_classes (y : list Z) (mask : list bool) : result (Z * Z) :=
  let valid l := filter (fun v => (v >=? 0)%Z) l in
  let classes := uniqueZ (valid (masked mask y)) in
  let classes := if (lenZ classes =? 2)%Z then classes else uniqueZ (valid y) in
  match classes with
  | [a; b] => Ok (a, b)
  | _ => Err ValueError
  end.
(* lines 51-53 y_enc, and 84-85 y_vec: the encoding on the labelled nodes, 0 elsewhere *)
Definition signed_labels (a b : Z) (y : list Z) (mask : list bool) : list Q :=
  map (fun p : bool * Z => if fst p then (if (snd p =? b)%Z then 1 else if (snd p =? a)%Z then - (1) else 0) else 0) (combine mask y).
Section Lazy.
Variable root : Q -> Q.                           (* np.sqrt *)
Variable solve : mat -> mat -> option mat.        (* np.linalg.solve; None: LinAlgError *)
(* lines 92-94: A = I - alpha * D^-1/2 W D^-1/2 *)
Definition walk_matrix (alpha : Q) (W : mat) (n : nat) : mat :=
  let d i := 1 / root (row_sum W i) in
  tabulate n n (fun i j => (if Nat.eqb i j then 1 else 0) - alpha * (d i * entry W i j * d j)).
(* lines 57-107 lazy_random_walk_numpy *)
Definition lazy_random_walk (n : Z) (edge_index : list (Z * Z)) (weight : option (list Q)) (y : list Z) (mask : list bool) (alpha : Q) : result diffusion :=
  if Qle_bool alpha 0 || Qle_bool 1 alpha then Err ValueError
  else
    do E <- checked n edge_index weight y mask;
    do ' (a, b) <- binary_classes y mask;
    let nn := Z.to_nat n in
    let W := affinity E nn in
    if isolated W then Err ValueError
    else match solve (walk_matrix alpha W nn) (map (fun v => [v]) (signed_labels a b y mask)) with
         | None => Err ValueError
         | Some f => Ok {| d_F := tabulate nn 2 (fun i c => if Qle_bool 0 (entry f i 0) then (if Nat.eqb c 1 then 1 else 0) else (if Nat.eqb c 0 then 1 else 0));
                           d_iter := 1; d_residual := Some 0 |}
         end.
End Lazy.

(* ---- dynamic_label_propagation.py *)
Record dlp_spec := { dl_k : Z; dl_alpha : Q; dl_lambda : Q; dl_max_iter : Z }.
Section Dynamic.
(* np.argpartition(row, -k)[-k:] on row i of P0 with its own entry put to -inf: the column numbers *)
Variable top : nat -> nat -> list Q -> list nat.  (* k, i, row *)
(* lines 38-53 _knn_matrix_numpy *)
Definition knn_row (k i : nat) (row : list Q) : result (list Q) :=
  let idx := top k i row in
  let s := Qsum (map (fun j => nth j row 0) idx) in
  if Qle_bool s 0 then Err ValueError
  else Ok (map (fun j => if existsb (Nat.eqb j) idx then nth j row 0 / s else 0) (seq 0 (List.length row))).
Fixpoint knn_rows (k i : nat) (P0 : mat) : result mat :=
  match P0 with
  | [] => Ok []
  | row :: rest => do r <- knn_row k i row; do rs <- knn_rows k (S i) rest; Ok (r :: rs)
  end.
Definition knn_matrix (P0 : mat) (k : Z) : result mat :=
  if (k <=? 0)%Z || (k >=? lenZ P0)%Z then Ok P0 else knn_rows (Z.to_nat k) 0 P0.
(* matrix products on tables of known size *)
Definition mm (n m k : nat) (A B : mat) : mat := tabulate n k (fun i c => Qsum (map (fun j => entry A i j * entry B j c) (seq 0 m))).
Definition transpose (n m : nat) (A : mat) : mat := tabulate m n (fun i j => entry A j i).
(* lines 101-110, one round on (P_t, Y_t) *)
Definition dlp_round (n k : nat) (P : mat) (mask : list bool) (Y0 : mat) (alpha lambda : Q) (s : mat * mat) : mat * mat :=
  let '(Pt, Yt) := s in
  let Ynext := clamp mask Y0 (mm n n k Pt Yt) in
  let YY := mm n k n Yt (transpose n k Yt) in
  let Q1 := mm n n n (mm n n n P (tabulate n n (fun i j => entry Pt i j + alpha * entry YY i j))) (transpose n n P) in
  let Pt' := if Qeq_bool lambda 0 then Q1 else tabulate n n (fun i j => entry Q1 i j + lambda * (if Nat.eqb i j then 1 else 0)) in
  (Pt', Ynext).
Fixpoint dlp_loop (n k : nat) (P : mat) (mask : list bool) (Y0 : mat) (alpha lambda : Q) (fuel : nat) (s : mat * mat) (residual : option Q) : mat * option Q :=
  match fuel with
  | O => (snd s, residual)
  | S fuel => let s' := dlp_round n k P mask Y0 alpha lambda s in
              dlp_loop n k P mask Y0 alpha lambda fuel s' (Some (max_diff (snd s') (snd s)))
  end.
(* lines 56-112 dynamic_label_propagation_numpy *)
Definition dynamic_propagation (n : Z) (edge_index : list (Z * Z)) (weight : option (list Q)) (y : list Z) (mask : list bool) (sp : dlp_spec) : result diffusion :=
  if (dl_k sp <=? 0)%Z then Err ValueError
  else if negb (Qle_bool 0 (dl_alpha sp)) then Err ValueError
  else
    do E <- checked n edge_index weight y mask;
    let k := infer_num_classes y in
    do Y <- labels_to_onehot y k;
    let Y0 := zero_unlabelled mask Y in
    let nn := Z.to_nat n in
    let W := affinity E nn in
    if isolated W then Err ValueError
    else
      let P0 := tabulate nn nn (fun i j => entry W i j / row_sum W i) in
      do P <- knn_matrix P0 (dl_k sp);
      let '(F, r) := dlp_loop nn (Z.to_nat k) P mask Y0 (dl_alpha sp) (dl_lambda sp) (Z.to_nat (dl_max_iter sp)) (P0, Y0) None in
      Ok {| d_F := F; d_iter := dl_max_iter sp; d_residual := r |}.
End Dynamic.
