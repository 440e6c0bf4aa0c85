(* Model of src/modssc/transductive/methods/gnn/grafn.py: augmented views, the sampled support, soft nearest neighbours, the
   loss of an epoch, the training loop with early stopping on the validation accuracy, and prediction.  Rationals replace
   float32; the network, the optimizer, softmax, the normalisation of a row, cosine similarity, the cross entropy of a row
   and log(p ** -t) are parameters.  The weights include the running statistics of the batch norms, which the optimizer
   step may change too. *)
From Coq Require Import QArith Qminmax.
From Verif Require Import Prelude QFacts TransModel GnnModel.
Local Open Scope Q_scope.
Local Open Scope list_scope.

Definition Qltb (a b : Q) : bool := negb (Qle_bool b a).
Definition view := (mat * list edge)%type.
(* what the network sees in an epoch: the support nodes, their label rows, the strong and the weak view *)
Record objective := { ob_support : list nat; ob_labels : mat; ob_anchor : view; ob_pos : view }.
(* y == c on the training nodes, as np.flatnonzero (grafn.py lines 77-78) *)
Definition class_nodes (y : list Z) (train : list bool) (c : Z) : list nat :=
  filter (fun i => nth i train false && (nth i y (-1) =? c)%Z) (seq 0 (List.length y)).
Definition smallest (l : list nat) : nat := match l with [] => O | a :: r => fold_right Nat.min a r end.
Definition row_largest (r : list Q) : Q := match r with [] => 0 | a :: r => fold_right Qmax a r end.
(* grafn.py lines 92-94 *)
Definition label_matrix (b classes : nat) : mat := map (fun t => map (fun c => if Nat.eqb (Nat.div t b) c then 1 else 0) (seq 0 classes)) (seq 0 (b * classes)).

Section Views.
Variable G : Type.                                     (* numpy generators *)
Variable random : G -> nat -> list Q * G.              (* rng.random((k,)) *)
Variable choice : G -> list nat -> nat -> bool -> list nat * G.  (* rng.choice(idx, size, replace) *)
Variable rsqrt : Q -> Q.
Variable tiny : Q.
(* _drop_features (grafn.py lines 29-37); the matrix has [width] columns *)
Definition drop_features (p : Q) (width : nat) (X : mat) (g : G) : mat * G :=
  if Qle_bool p 0 then (X, g)
  else
    let '(u, g) := random g width in
    let mask := map (fun v => Qltb v p) u in
    if existsb (fun b => b) mask then (map (fun r => map (fun c => if nth c mask false then 0 else nth c r 0) (seq 0 width)) X, g) else (X, g).
(* _drop_edges (grafn.py lines 40-48) *)
Definition drop_edges (p : Q) (E : list edge) (g : G) : list edge * G :=
  if Qle_bool p 0 then (E, g)
  else
    let '(u, g) := random g (List.length E) in
    let keep := map (fun v => Qle_bool p v) u in
    if existsb (fun b => b) keep then (masked keep E, g) else (E, g).
(* _build_augmented_view (grafn.py lines 51-66) *)
Definition augmented (drop_edge drop_feat : Q) (n : Z) (width : nat) (X : mat) (E : list edge) (g : G) : view * G :=
  let '(X, g) := drop_features drop_feat width X g in
  let '(E, g) := drop_edges drop_edge E g in
  ((X, edge_normalise rsqrt tiny NormSym (add_loops n 1 E)), g).
(* _sample_support (grafn.py lines 69-96) *)
Fixpoint sample_classes (size : nat) (l : list (list nat)) (g : G) : list nat * G :=
  match l with
  | [] => ([], g)
  | idx :: l => let '(s, g) := choice g idx size (Nat.ltb (List.length idx) size) in let '(r, g) := sample_classes size l g in (s ++ r, g)
  end.
Definition sample_support (y : list Z) (train : list bool) (classes : Z) (g : G) : result (list nat * mat * G) :=
  let label_dict := map (fun c => class_nodes y train (Z.of_nat c)) (seq 0 (Z.to_nat classes)) in
  if existsb (fun idx => match idx with [] => true | _ => false end) label_dict then Err ValueError
  else match label_dict with
       | [] => Err ValueError
       | _ => let b := smallest (map (@List.length nat) label_dict) in
              let '(s, g) := sample_classes b label_dict g in Ok (s, label_matrix b (Z.to_nat classes), g)
       end.
End Views.

Section Loss.
Variable softmax : list Q -> list Q.
Variable unit_row : list Q -> list Q.                  (* torch.nn.functional.normalize of a row *)
Variable cosine : list Q -> list Q -> Q.               (* torch.nn.functional.cosine_similarity of two rows *)
Variable cross : list Q -> Z -> Q.                     (* cross entropy of a row of logits *)
Variable log_pow : Q -> Q -> Q.                        (* torch.log(p ** (-t)) *)
Definition dot (a b : list Q) : Q := Qsum (map (fun p : Q * Q => fst p * snd p) (combine a b)).
(* _snn (grafn.py lines 383-388) *)
Definition snn (tau : Q) (k : nat) (query supports labels : mat) : mat :=
  map (fun q => let w := softmax (map (fun s => dot (unit_row q) (unit_row s) / tau) supports) in
                map (fun c => Qsum (map (fun p : Q * list Q => fst p * nth c (snd p) 0) (combine w labels))) (seq 0 k)) query.
(* grafn.py lines 294-305: the rows that count and their targets *)
Definition included (thres : Q) (train : list bool) (targets : mat) : list nat :=
  filter (fun i => Qltb thres (row_largest (nth i targets [])) || nth i train false) (seq 0 (List.length targets)).
Definition target_row (k : nat) (y : list Z) (train : list bool) (targets : mat) (i : nat) : list Q :=
  if nth i train false then onehot_row k (nth i y (-1)%Z) else map (fun x => if Qltb x (1 # 10000) then 0 else x) (nth i targets []).
(* grafn.py lines 286-329: the loss of the weights whose representations and logits these are *)
Definition epoch_loss (tau thres lam_c lam_n : Q) (k : nat) (y : list Z) (train : list bool) (ob : objective) (anchor_rep pos_rep anchor_logits pos_logits : mat) : Q :=
  let rows z := map (fun i => nth i z []) (ob_support ob) in
  let probs := snn tau k anchor_rep (rows anchor_rep) (ob_labels ob) in
  let targets := snn tau k pos_rep (rows pos_rep) (ob_labels ob) in
  let cons := Qmean (map (fun i => Qsum (map (fun p : Q * Q => log_pow (fst p) (snd p)) (combine (nth i probs []) (target_row k y train targets i)))) (included thres train targets)) in
  let shown := filter (fun i => nth i train false) (seq 0 (List.length y)) in
  let ce z := Qmean (map (fun i => cross (nth i z []) (nth i y (-1)%Z)) shown) in
  let sup := (ce anchor_logits + ce pos_logits) * (1 # 2) in
  let unsup := 2 - 2 * Qmean (map (fun p : list Q * list Q => cosine (fst p) (snd p)) (combine anchor_rep pos_rep)) in
  sup + lam_c * cons + lam_n * unsup.
End Loss.

Record grafn_spec := { gf_layers : nat; gf_max_epochs : Z; gf_patience : Z; gf_tau : Q; gf_thres : Q; gf_lam_c : Q; gf_lam_n : Q;
                       gf_feat_strong : Q; gf_edge_strong : Q; gf_feat_weak : Q; gf_edge_weak : Q }.
Section Method.
Variables W Op G T : Type.                             (* weights, optimizer, numpy and torch generators *)
Variable random : G -> nat -> list Q * G.
Variable choice : G -> list nat -> nat -> bool -> list nat * G.
Variable integers : G -> Z * G.                        (* rng.integers(0, 2**32 - 1) *)
Variable default_rng : Z -> G.
Variable torch_seeded : Z -> T.
Variable rsqrt : Q -> Q.
Variable tiny : Q.
Variable init : nat -> Z -> T -> W.                    (* building the network for an input width and a number of classes *)
Variable opt : W -> Op.
Variable step : (W -> Q) -> W -> Op -> W * Op.         (* one optimizer step on this loss *)
Variable encode : W -> view -> mat.                    (* training mode *)
Variable head : W -> list Q -> list Q.                 (* the linear classifier of a row *)
Variable encode_eval : W -> view -> mat.               (* evaluation mode *)
Variable argmax : list Q -> Z.
Variables softmax unit_row : list Q -> list Q.
Variable cosine : list Q -> list Q -> Q.
Variable cross : list Q -> Z -> Q.
Variable log_pow : Q -> Q -> Q.
(* self._model, self._base_edge_index with its weights, self._n_nodes *)
Record grafn := { go_model : option W; go_edges : option (list edge); go_n : option Z }.
(* grafn.py lines 259-284: the draws of an epoch *)
Definition epoch_objective (sp : grafn_spec) (y : list Z) (train : list bool) (classes n : Z) (width : nat) (X : mat) (E : list edge) (g : G) : result (objective * G) :=
  do ' (s, labels, g) <- sample_support G choice y train classes g;
  let '(s1, g) := integers g in
  let '(v1, _) := augmented G random rsqrt tiny (gf_edge_strong sp) (gf_feat_strong sp) n width X E (default_rng s1) in
  let '(s2, g) := integers g in
  let '(v2, _) := augmented G random rsqrt tiny (gf_edge_weak sp) (gf_feat_weak sp) n width X E (default_rng s2) in
  Ok ({| ob_support := s; ob_labels := labels; ob_anchor := v1; ob_pos := v2 |}, g).
Definition loss_of (sp : grafn_spec) (y : list Z) (train : list bool) (classes : Z) (ob : objective) (w : W) : Q :=
  let a := encode w (ob_anchor ob) in
  let p := encode w (ob_pos ob) in
  epoch_loss softmax unit_row cosine cross log_pow (gf_tau sp) (gf_thres sp) (gf_lam_c sp) (gf_lam_n sp) (Z.to_nat classes) y train ob a p (map (head w) a) (map (head w) p).
(* the share of the validation nodes whose largest logit is their label (grafn.py lines 336-342) *)
Definition accuracy (y : list Z) (val : list bool) (base : view) (w : W) : Q :=
  let pred := map (fun z => argmax (head w z)) (encode_eval w base) in
  let rows := filter (fun i => nth i val false) (seq 0 (List.length y)) in
  Qmean (map (fun i => if (nth i pred (-1) =? nth i y (-1))%Z then 1 else 0) rows).
(* scatter_ raises on a label outside the classes (grafn.py line 303) *)
Definition bad_label (y : list Z) (train : list bool) (classes : Z) : bool :=
  existsb (fun i => nth i train false && negb ((0 <=? nth i y (-1))%Z && (nth i y (-1) <? classes)%Z)) (seq 0 (List.length y)).
(* the epochs (grafn.py lines 256-355); [best]: the best accuracy and its weights.  An exception leaves the model as it is *)
Fixpoint epochs (sp : grafn_spec) (y : list Z) (train : list bool) (val : option (list bool)) (classes n : Z) (width : nat) (X : mat) (E : list edge) (base : view)
    (fuel : nat) (w : W) (o : Op) (g : G) (best : option (Q * W)) (bad : Z) : W * result unit :=
  match fuel with
  | O => (match best with Some (_, b) => b | None => w end, Ok tt)
  | S fuel =>
    match epoch_objective sp y train classes n width X E g with
    | Err e => (w, Err e)
    | Ok (ob, g) =>
      if bad_label y train classes then (w, Err RuntimeError)
      else
        let '(w, o) := step (loss_of sp y train classes ob) w o in
        match val with
        | Some m =>
          if existsb (fun b => b) m then
            let acc := accuracy y m base w in
            if match best with None => true | Some (a, _) => Qltb a acc end
            then epochs sp y train val classes n width X E base fuel w o g (Some (acc, w)) 0%Z
            else if (gf_patience sp <=? bad + 1)%Z then (match best with Some (_, b) => b | None => w end, Ok tt)
            else epochs sp y train val classes n width X E base fuel w o g best (bad + 1)%Z
          else epochs sp y train val classes n width X E base fuel w o g best bad
        | None => epochs sp y train val classes n width X E base fuel w o g best bad
        end
    end
  end.
(* GraFNMethod.fit (grafn.py lines 187-358): the method object after it, and whether it raises *)
Definition grafn_fit (sp : grafn_spec) (seed : Z) (d : node_data) (obj : grafn) : grafn * result unit :=
  if Qle_bool (gf_tau sp) 0 then (obj, Err ValueError)
  else if negb (Qle_bool 0 (gf_thres sp) && Qle_bool (gf_thres sp) 1) then (obj, Err ValueError)
  else
    match prepare_data rsqrt tiny d true NormSym with
    | Err e => (obj, Err e)
    | Ok p =>
      if negb (existsb (fun b => b) (pp_train p)) then (obj, Err ValueError)
      else
        let E := combine (nd_edges d) (match nd_weight d with None => map (fun _ => 1) (nd_edges d) | Some l => l end) in
        if Nat.eqb (gf_layers sp) 0 then ({| go_model := go_model obj; go_edges := Some (pp_E p); go_n := Some (pp_n p) |}, Err ValueError)
        else
          let w := init (nd_width d) (pp_classes p) (torch_seeded seed) in
          let '(w, r) := epochs sp (pp_y p) (pp_train p) (pp_val p) (pp_classes p) (pp_n p) (nd_width d) (pp_X p) E (pp_X p, pp_E p) (Z.to_nat (gf_max_epochs sp)) w (opt w) (default_rng seed) None 0 in
          ({| go_model := Some w; go_edges := Some (pp_E p); go_n := Some (pp_n p) |}, r)
    end.
(* GraFNMethod.predict_proba (grafn.py lines 360-380) *)
Definition grafn_predict (obj : grafn) (d : node_data) : result mat :=
  match go_model obj, go_edges obj with
  | Some w, Some E =>
    do p <- prepare_data rsqrt tiny d true NormSym;
    if match go_n obj with Some n => negb (pp_n p =? n)%Z | None => false end then Err ValueError
    else Ok (map (fun z => softmax (head w z)) (encode_eval w (pp_X p, E)))
  | _, _ => Err RuntimeError
  end.
End Method.
