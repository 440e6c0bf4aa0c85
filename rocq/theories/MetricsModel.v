(* Model of src/modssc/evaluation/metrics.py: accuracy, balanced accuracy, macro F1 and their dispatch.
   Labels are integers; counts and averages are exact rationals instead of float64.  None stands for nan. *)
From Coq Require Import QArith String.
From Verif Require Import Prelude QFacts.
Local Open Scope Z_scope.
Local Open Scope list_scope.

(* np.searchsorted(classes, x), side left, on an ascending array *)
Definition searchsorted (classes : list Z) (x : Z) : Z := lenZ (filter (fun c => c <? x) classes).
(* metrics.py:25-40 _pred_indices_for_classes, one element; the except branch serves non-numeric labels and is
   not modelled *)
Definition pred_index (classes : list Z) (x : Z) : Z :=
  match classes with
  | [] => -1
  | _ => let idx := searchsorted classes x in
         let idx_clip := clampZ 0 (lenZ classes - 1) idx in
         if (0 <=? idx) && (idx <? lenZ classes) && (nth (Z.to_nat idx_clip) classes 0 =? x) then idx_clip else -1
  end.
(* np.bincount(idx, minlength=n) for indices below n *)
Definition bincount (idx : list Z) (n : Z) : list Z := map (fun i => countZ i idx) (arange n).
(* np.divide(a, b, out=zeros, where=b > 0) on counts *)
Definition divide (a b : list Z) : list Q := map (fun p => if 0 <? snd p then ratio (fst p) (snd p) else 0%Q) (combine a b).
(* indices of the samples predicted correctly: true_idx[pred_idx == true_idx] *)
Definition correct (true_idx pred_idx : list Z) : list Z :=
  map fst (filter (fun p => snd p =? fst p) (combine true_idx pred_idx)).

(* metrics.py:43-46 *)
Definition accuracy (y_true y_pred : list Z) : option Q :=
  match y_true with
  | [] => None
  | _ => Some (Qmean (map (fun p => if fst p =? snd p then 1%Q else 0%Q) (combine y_true y_pred)))
  end.
(* metrics.py:49-74; integer labels have no nan, so the mask keeps every sample.  np.unique's inverse is the
   position of each label among the sorted distinct ones *)
Definition balanced_accuracy (y_true y_pred : list Z) : option Q :=
  match y_true with
  | [] => None
  | _ => let classes := uniqueZ y_true in
         let true_idx := map (searchsorted classes) y_true in
         let pred_idx := map (pred_index classes) y_pred in
         let n_classes := lenZ classes in
         let true_counts := bincount true_idx n_classes in
         let tp := bincount (correct true_idx pred_idx) n_classes in
         Some (Qmean (divide tp true_counts))
  end.
(* metrics.py:77-95 *)
Definition f1_score (pr : Q * Q) : Q :=
  let denom := (fst pr + snd pr)%Q in
  if Qle_bool denom 0 then 0%Q else (2 * fst pr * snd pr / denom)%Q.
Definition macro_f1 (y_true y_pred : list Z) : option Q :=
  match y_true with
  | [] => None
  | _ => let classes := uniqueZ y_true in
         let true_idx := map (searchsorted classes) y_true in
         let pred_idx := map (pred_index classes) y_pred in
         let n_classes := lenZ classes in
         let true_counts := bincount true_idx n_classes in
         let pred_counts := bincount (filter (fun i => 0 <=? i) pred_idx) n_classes in
         let tp := bincount (correct true_idx pred_idx) n_classes in
         let prec := divide tp pred_counts in
         let rec := divide tp true_counts in
         Some (Qmean (map f1_score (combine prec rec)))
  end.

(* ----------------------------------------------------------------------- metrics.py:10-22 *)
(* labels, or one row of scores per sample *)
Inductive outputs := Labels (l : list Z) | Scores (rows : list (list Q)).
(* np.argmax: the first of the largest entries *)
Fixpoint argmax_from (i best : Z) (b : Q) (l : list Q) : Z :=
  match l with
  | [] => best
  | x :: r => if Qle_bool x b then argmax_from (i + 1) best b r else argmax_from (i + 1) i x r
  end.
Definition argmax (row : list Q) : result Z :=
  match row with [] => Err ValueError | x :: r => Ok (argmax_from 1 0 x r) end.
Fixpoint argmax_rows (rows : list (list Q)) : result (list Z) :=
  match rows with [] => Ok [] | r :: t => do i <- argmax r; do l <- argmax_rows t; Ok (i :: l) end.
(* labels_1d, predict_labels: the same on integer labels *)
Definition labels_1d (o : outputs) : result (list Z) :=
  match o with Labels l => Ok l | Scores rows => argmax_rows rows end.

(* metrics.py:98-102 *)
Definition metric_fn (name : string) : option (list Z -> list Z -> option Q) :=
  if String.eqb name "accuracy" then Some accuracy
  else if String.eqb name "balanced_accuracy" then Some balanced_accuracy
  else if String.eqb name "macro_f1" then Some macro_f1 else None.
Definition scores := list (string * option Q).
Fixpoint put (d : scores) (k : string) (v : option Q) : scores :=
  match d with
  | [] => [(k, v)]
  | (a, w) :: r => if String.eqb a k then (a, v) :: r else (a, w) :: put r k v
  end.
(* metrics.py:109-119 *)
Fixpoint compute_from (y_true y_pred : list Z) (names : list string) (out : scores) : result scores :=
  match names with
  | [] => Ok out
  | n :: r => match metric_fn n with
              | None => Err ValueError
              | Some f => compute_from y_true y_pred r (put out n (f y_true y_pred))
              end
  end.
Definition compute_metrics (y_true y_pred : list Z) (names : list string) : result scores :=
  compute_from y_true y_pred names [].
(* metrics.py:121-129 *)
Definition evaluate (y_true predictions : outputs) (names : list string) : result scores :=
  do t <- labels_1d y_true; do p <- labels_1d predictions; compute_metrics t p names.
