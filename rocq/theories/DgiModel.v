(* Model of the graph.dgi step (src/modssc/preprocess/steps/graph/dgi.py).  Exact rationals replace float32; the weights and the
   optimizer, their update, the torch generator, the generator of the step and 1/sqrt are parameters.  The graph convolution is that of GnnModel.v:
   dgi.py lines 65-112 repeat it word for word.  Devices are not modelled. *)
From Coq Require Import QArith Qminmax.
From Verif Require Import Prelude QFacts TransModel GnnModel PcaModel.
Local Open Scope Z_scope.
Local Open Scope list_scope.
Local Notation length := List.length.

(* features: not numeric, one, two or another number of dimensions; an array of two dimensions has its width and its rows *)
Inductive features := XBad | X1 (l : list Q) | X2 (w : nat) (rows : mat) | XOther.
(* _ensure_2d (dgi.py lines 15-20) *)
Definition ensure_2d (x : features) : result (nat * mat) :=
  match x with X1 l => Ok (1%nat, map (fun v => [v]) l) | X2 w rows => Ok (w, rows) | _ => Err PreprocessError end.
(* edge_index: the rows of an array of two dimensions and their width, or another array *)
Inductive edge_array := E2 (rows : list (list Z)) (cols : nat) | EOther.
(* _as_edge_index (dgi.py lines 23-37): the pairs source, target *)
Definition as_edge_index (n : nat) (e : edge_array) : result (list (Z * Z)) :=
  match e with
  | EOther => Err PreprocessError
  | E2 rows cols =>
    let rows := if negb (Nat.eqb (length rows) 2) && Nat.eqb cols 2 then [map (fun r => nth 0 r 0) rows; map (fun r => nth 1 r 0) rows] else rows in
    match rows with
    | [src; dst] => if existsb (fun v => (v <? 0) || (v >=? Z.of_nat n)) (src ++ dst) then Err PreprocessError else Ok (combine src dst)
    | _ => Err PreprocessError
    end
  end.
(* _as_edge_weight and the weights of one (dgi.py lines 40-46 and 223-227); weights: the values of the array *)
Definition as_edge_weight (w : option (list Q)) (E : nat) : result (list Q) :=
  match w with None => Ok (repeat 1%Q E) | Some l => if Nat.eqb (length l) E then Ok l else Err PreprocessError end.
(* the fields of the step (dgi.py lines 197-203) *)
Record config := { c_emb : Z; c_hid : Z; c_dropout : Q; c_epochs : Z; c_lr : Q; c_loops : bool }.
(* what the step reads of the store *)
Record store := { s_edges : option edge_array; s_features : option features; s_raw : option features; s_weight : option (list Q) }.
(* the checks of transform (dgi.py lines 205-238): width, features, edges and weights *)
Definition checked (c : config) (s : store) : result (nat * mat * list edge) :=
  match s_edges s with
  | None => Err PreprocessError
  | Some e =>
    do X <- match get_X (s_features s) (s_raw s) with Ok x => Ok x | Err _ => Err PreprocessError end;
    do ' (d, X) <- ensure_2d X;
    do pairs <- as_edge_index (length X) e;
    do w <- as_edge_weight (s_weight s) (length pairs);
    if (c_emb c <=? 0) || (c_hid c <=? 0) || (c_epochs c <=? 0) || Qle_bool (c_lr c) 0 || negb (Qle_bool 0 (c_dropout c) && negb (Qle_bool 1 (c_dropout c))) then Err PreprocessError
    else Ok (d, X, combine pairs w)
  end.

Section Step.
Variable rsqrt : Q -> Q.
Variable tiny : Q.                                        (* 1e-12 *)
Variables W N G R : Type.                                 (* weights with optimizer, random choices of an epoch, torch generator, generator of the step *)
Variables lin1 lin2 : W -> list Q -> list Q.              (* the two layers of the encoder *)
Variable init : nat -> nat -> nat -> G -> W * G.          (* fresh encoder and discriminator of given widths *)
Variable seeded : Z -> G.                                 (* torch.manual_seed *)
Variable choices : nat -> nat -> config -> G -> N * G.    (* the permutation and the dropout of an epoch *)
Variable update : mat -> list edge -> N -> W -> W.        (* one optimizer step of an epoch *)
Variable integers : R -> Z * R.                           (* rng.integers(0, 1 << 31) *)
(* the epochs (dgi.py lines 163-186) *)
Fixpoint epochs (k : nat) (c : config) (d : nat) (X : mat) (E : list edge) (w : W) (g : G) : W * G :=
  match k with
  | O => (w, g)
  | S k => let '(noise, g) := choices (length X) d c g in epochs k c d X E (update X E noise w) g
  end.
(* _train_dgi (dgi.py lines 49-192): the network is built, then the generator is seeded *)
Definition train_dgi (c : config) (d : nat) (X : mat) (E : list edge) (seed : Z) (g : G) : mat * G :=
  let n := length X in
  let E := edge_normalise rsqrt tiny NormSym (if c_loops c then add_loops (Z.of_nat n) 1 E else E) in
  let '(w, _) := init d (Z.to_nat (c_hid c)) (Z.to_nat (c_emb c)) g in
  let '(w, g) := epochs (Z.to_nat (c_epochs c)) c d X E w (seeded seed) in
  (gcn (lin1 w) (lin2 w) n (Z.to_nat (c_hid c)) (Z.to_nat (c_emb c)) E X, g).
(* GraphDGIStep.transform (dgi.py lines 205-255) *)
Definition transform (c : config) (s : store) (r : R) (g : G) : result mat * R * G :=
  match checked c s with
  | Err e => (Err e, r, g)
  | Ok (d, X, E) => let '(seed, r) := integers r in let '(emb, g) := train_dgi c d X E seed g in (Ok emb, r, g)
  end.
End Step.
