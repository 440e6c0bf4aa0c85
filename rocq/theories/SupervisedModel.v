(* Model of modssc.supervised: label encoding, the numpy and torch k-nearest-neighbour classifiers, the
   default score matrices, and the choice of a backend.  Labels are integers; float32 arithmetic is
   exact rational arithmetic. *)
From Coq Require Import List ZArith Bool QArith Qminmax String.
From Verif Require Import Prelude QFacts KnnModel InductModel EnsembleModel.
Import ListNotations.
Open Scope Z_scope.

(* np.searchsorted(classes, y) with side="left": the number of entries below y *)
Definition searchsorted (classes : list Z) (y : Z) : nat := List.length (filter (fun c => c <? y) classes).

(* src/modssc/supervised/utils.py encode_labels (53-68) *)
Definition encode_labels (y : list Z) : list nat * list Z :=
  let classes := uniqueZ y in (map (searchsorted classes) y, classes).

(* utils.py onehot (71-76); an index outside the columns raises IndexError *)
Definition onehot_row (n_classes : nat) (i : nat) : result (list Q) :=
  if (i <? n_classes)%nat then Ok (map (fun c => if Nat.eqb c i then 1%Q else 0%Q) (seq 0 n_classes))
  else Err IndexError.
Fixpoint onehot (idx : list nat) (n_classes : nat) : result (list (list Q)) :=
  match idx with
  | [] => Ok []
  | i :: rest => do r <- onehot_row n_classes i; do rs <- onehot rest n_classes; Ok (r :: rs)
  end.

(* base.py BaseSupervisedClassifier.predict_scores (52-66) without probabilities *)
Definition scores_from_predictions (classes pred : list Z) : result (list (list Q)) :=
  onehot (map (searchsorted classes) pred) (List.length classes).

(* backends/sklearn/common.py decision_scores_float32 (25-32), binary case *)
Definition stack_binary (s : list Q) : list (list Q) := map (fun x => [- x; x]%Q) s.

(* ----- backends/numpy/knn.py and backends/torch/knn.py ----- *)
Inductive knn_weights := KUniform | KDistance.
Inductive knn_metric := KEuclidean | KCosine.

Section Knn.
Context {X : Type}.
(* _pairwise_scores (97-111): minus the squared distance, or the cosine; arbitrary here *)
Variable score : X -> X -> Q.
(* np.argpartition(-scores, kth=k-1)[:k] of one row, or torch.topk(scores, k).indices *)
Variable top : list Q -> nat -> list nat.

Record knn_state := { kn_X : list X; kn_y : list nat; kn_classes : list Z; kn_k : Z }.

(* fit (56-95); a row always has at least one feature here *)
Definition knn_fit (k : Z) (Xt : list X) (y : list Z) : result knn_state :=
  match Xt with
  | [] => Err SupervisedError
  | _ =>
      let '(y_enc, classes) := encode_labels y in
      if negb (Nat.eqb (List.length Xt) (List.length y_enc)) then Err SupervisedError
      else if k <=? 0 then Err SupervisedError
      else Ok {| kn_X := Xt; kn_y := y_enc; kn_classes := classes; kn_k := k |}
  end.

(* lines 136-144: the weight of a neighbour with the given score *)
Definition knn_weight (w : knn_weights) (m : knn_metric) (eps s : Q) : Q :=
  match w with
  | KUniform => 1
  | KDistance => 1 / ((match m with KEuclidean => Qmax (- s) 0 | KCosine => Qmax (1 - s) 0 end) + eps)
  end%Q.

(* np.add.at(out, (row, cols), w) for one row *)
Definition add_at (row : list Q) (cols : list nat) (w : list Q) : list Q :=
  fold_left (fun r p => update r (fst p) (fun x => x + snd p)%Q) (combine cols w) row.

(* one query row: lines 128-148 *)
Definition knn_votes (st : knn_state) (w : knn_weights) (m : knn_metric) (eps : Q) (q : X) (row : list Q) : list Q :=
  let scores := map (score q) (kn_X st) in
  let k := Z.to_nat (Z.min (kn_k st) (lenZ (kn_X st))) in
  let idx := top scores k in
  add_at row (map (fun i => nth i (kn_y st) 0%nat) idx) (map (fun i => knn_weight w m eps (nth i scores 0%Q)) idx).

(* predict_proba (113-153): batches, then normalisation *)
Definition knn_proba (st : knn_state) (w : knn_weights) (m : knn_metric) (eps : Q) (batch_size : Z) (d : X) (Qs : list X)
    : result (list (list Q)) :=
  let n := lenZ Qs in
  do starts <- py_range n batch_size;
  let zeros := map (fun _ => map (fun _ => 0%Q) (kn_classes st)) Qs in
  let out := fold_left (fun out s =>
               fold_left (fun out i => update out (Z.to_nat i) (knn_votes st w m eps (nth (Z.to_nat i) Qs d)))
                 (arange2 s (Z.min n (s + batch_size))) out) starts zeros in
  Ok (map normalise_row out).

(* predict (158-161) *)
Definition knn_predict (st : knn_state) (w : knn_weights) (m : knn_metric) (eps : Q) (batch_size : Z) (d : X) (Qs : list X)
    : result (list Z) :=
  do p <- knn_proba st w m eps batch_size d Qs;
  look_up (kn_classes st) (map argmax p).
End Knn.

(* ----- api.py create_classifier (61-114) ----- *)
Record backend_spec := { b_factory : string; b_extra : option string }.
Record clf_spec := { cs_backends : list (string * backend_spec); cs_preferred : list string }.

Definition lookup {A} (k : string) (l : list (string * A)) : option A :=
  match find (fun p => String.eqb (fst p) k) l with Some p => Some (snd p) | None => None end.

(* the parameters: name -> value, None standing for "not given" (ints only) *)
Definition has_param (k : string) (params : list (string * Z)) : bool := existsb (fun p => String.eqb (fst p) k) params.

Section Create.
Variable registry : list (string * clf_spec).
Variable importable : string -> bool.        (* has_module(module_for_extra(extra)) *)

Definition usable (s : clf_spec) (b : string) : bool :=
  match lookup b (cs_backends s) with
  | None => false
  | Some bs => match b_extra bs with None => true | Some e => importable e end
  end.

(* Lines 92-100: what is raised when nothing could be chosen *)
Definition no_backend (s : clf_spec) : exn :=
  match cs_preferred s with
  | [] => UnknownBackendError
  | first :: _ =>
      match lookup first (cs_backends s) with
      | Some bs => match b_extra bs with
                   | Some e => if String.eqb e "" then UnknownBackendError else OptionalDependencyError
                   | None => UnknownBackendError end
      | None => UnknownBackendError
      end
  end.

(* Lines 79-103; an empty chosen name counts as none *)
Definition choose_backend (s : clf_spec) (backend : string) : result string :=
  if String.eqb backend "auto" then
    match find (usable s) (cs_preferred s) with
    | Some b => if String.eqb b "" then Err (no_backend s) else Ok b
    | None => Err (no_backend s)
    end
  else Ok backend.

(* Lines 105-114: the factory and the parameters it is called with; lstm aliases not modelled *)
Definition create_classifier (id backend : string) (params : list (string * Z)) (seed n_jobs : option Z)
    : result (string * list (string * Z)) :=
  match lookup id registry with
  | None => Err SupervisedError       (* UnknownClassifierError *)
  | Some s =>
      do b <- choose_backend s backend;
      match lookup b (cs_backends s) with
      | None => Err UnknownBackendError
      | Some bs =>
          let p1 := match seed with
                    | Some v => if has_param "seed" params then params else params ++ [("seed"%string, v)]
                    | None => params end in
          let p2 := match n_jobs with
                    | Some v => if has_param "n_jobs" p1 then p1 else p1 ++ [("n_jobs"%string, v)]
                    | None => p1 end in
          Ok (b_factory bs, p2)
      end
  end.
End Create.
