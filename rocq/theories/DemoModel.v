(* Model of src/modssc/inductive/methods/democratic_co_learning.py, numpy path.  Learners are numbered
   0 .. L-1.  Scores and weights are exact rationals. *)
From Coq Require Import List ZArith Bool QArith Qminmax.
From Verif Require Import Prelude QFacts InductModel EnsembleModel.
Import ListNotations.
Open Scope Z_scope.

(* position of a label in classes: mapping.get (136-143).  A label that is not there gives None, which
   np.vectorize(otypes=[int]) cannot convert: TypeError. *)
Fixpoint position_of (l : Z) (classes : list Z) : result nat :=
  match classes with
  | [] => Err TypeError
  | c :: rest => if c =? l then Ok 0%nat else do p <- position_of l rest; Ok (S p)
  end.

Fixpoint encode (classes : list Z) (pred : list Z) : result (list nat) :=
  match pred with
  | [] => Ok []
  | l :: rest => do p <- position_of l classes; do ps <- encode classes rest; Ok (p :: ps)
  end.

Fixpoint encode_all (classes : list Z) (preds : list (list Z)) : result (list (list nat)) :=
  match preds with
  | [] => Ok []
  | p :: rest => do a <- encode classes p; do b <- encode_all classes rest; Ok (a :: b)
  end.

(* the score of class c for sample r: the weights of the learners voting for it *)
Definition vote (idx : list (list nat)) (weights : list Q) (r c : nat) : Q :=
  Qsum (map snd (filter (fun p : list nat * Q => Nat.eqb (nth r (fst p) 0%nat) c) (combine idx weights))).

(* _weighted_majority_numpy (154-167): arg-max of the votes, and whether the maximum is larger than the
   second largest entry, that is than every other entry *)
Definition majority_of (idx : list (list nat)) (weights : list Q) (n_classes r : nat) : nat * bool :=
  let row := map (vote idx weights r) (seq 0 n_classes) in
  let a := argmax row in
  (a, (n_classes <=? 1)%nat ||
      forallb (fun c => Nat.eqb c a || Qlt_bool (nth c row 0%Q) (nth a row 0%Q)) (seq 0 n_classes)).

Section Demo.
Context {X M : Type}.
Variable d : X.
Variable L : nat.
Variable fit : nat -> nat -> list X -> list Z -> M.    (* learner, number of its earlier fits *)
Variable predict : M -> list X -> list Z.
Variable classes_ : M -> option (list Z).
(* _confidence_interval_numpy (44-62): the lower end and the middle of the interval for the accuracy *)
Variable lower : list Z -> list Z -> Q.
Variable middle : list Z -> list Z -> Q.

(* _resolve_classes_numpy (90-106) *)
Fixpoint resolve (cs : option (list Z)) (ms : list M) : result (option (list Z)) :=
  match ms with
  | [] => Ok cs
  | m :: rest =>
      match classes_ m with
      | None => resolve cs rest
      | Some c =>
          match cs with
          | None => resolve (Some c) rest
          | Some c0 => if same_list c0 c then resolve cs rest else Err InductiveValidationError
          end
      end
  end.
Definition resolve_classes (ms : list M) (yl : list Z) : result (list Z) :=
  do cs <- resolve None ms;
  Ok (match cs with Some c => c | None => uniqueZ yl end).

Record learner := { l_X : list X; l_y : list Z; l_err : Q; l_added : list nat; l_calls : list (list X * list Z) }.
Definition start (Xl : list X) (yl : list Z) : learner := {| l_X := Xl; l_y := yl; l_err := 0; l_added := []; l_calls := [] |}.
Definition model_of (i : nat) (s : learner) : M := fit i (length (l_calls s)) (l_X s) (l_y s).
Definition fitted (s : learner) : learner :=
  {| l_X := l_X s; l_y := l_y s; l_err := l_err s; l_added := l_added s; l_calls := l_calls s ++ [(l_X s, l_y s)] |}.

(* min(max(np.mean(lower_bounds), 0.0), 1.0) (318-326) *)
Definition avg_lower (ms : list M) (ss : list learner) : Q :=
  Qmin (Qmax (Qmean (map (fun p : M * learner => lower (l_y (snd p)) (predict (fst p) (l_X (snd p)))) (combine ms ss))) 0) 1.

(* q (331-337): n * (1 - 2 e / n) ** 2 *)
Definition gain (n e : Q) : Q := (n * ((1 - 2 * (e / n)) * (1 - 2 * (e / n))))%Q.

(* Lines 311-345 for one learner: the rows the majority labels differently, added if the gain grows *)
Definition update_learner (Xu : list X) (classes : list Z) (maj : list (nat * bool)) (avg : Q)
    (mine : list nat) (s : learner) : learner * bool :=
  let idx := filter (fun r => snd (nth r maj (0%nat, false)) &&
                              negb (Nat.eqb (nth r mine 0%nat) (fst (nth r maj (0%nat, false)))) &&
                              negb (memN r (l_added s))) (seq 0 (length Xu)) in
  match idx with
  | [] => (s, false)
  | _ =>
      let n := inject_Z (lenZ (l_y s)) in
      let m := inject_Z (lenZ idx) in
      let e' := ((1 - avg) * m)%Q in
      if Qlt_bool (gain n (l_err s)) (gain (n + m) (l_err s + e'))
      then ({| l_X := l_X s ++ rows d Xu idx;
               l_y := l_y s ++ map (fun r => nth (fst (nth r maj (0%nat, false))) classes 0) idx;
               l_err := (l_err s + e')%Q; l_added := l_added s ++ idx; l_calls := l_calls s |}, true)
      else (s, false)
  end.

(* the while loop (289-350) *)
Fixpoint demo_loop (Xl : list X) (yl : list Z) (Xu : list X) (fuel : nat) (ss : list learner) : result (list learner) :=
  match fuel with
  | O => Ok (map fitted ss)
  | S f =>
      let ms := map (fun p : nat * learner => model_of (fst p) (snd p)) (combine (seq 0 L) ss) in
      let ss1 := map fitted ss in
      let weights := map (fun m => middle yl (predict m Xl)) ms in
      do classes <- resolve_classes ms yl;
      do idx <- encode_all classes (map (fun m => predict m Xu) ms);
      let maj := map (majority_of idx weights (length classes)) (seq 0 (length Xu)) in
      let avg := avg_lower ms ss1 in
      let out := map (fun p => update_learner Xu classes maj avg (fst p) (snd p)) (combine idx ss1) in
      if existsb snd out then demo_loop Xl yl Xu f (map fst out)
      else Ok (map fitted (map fst out))
  end.

(* DemocraticCoLearningMethod.fit (258-353): the training sets passed to each learner's fit, in order.
   _finalize_numpy raises if the classes disagree at the end. *)
Definition demo_fit (max_iter : Z) (Xl : list X) (yl : list Z) (Xu : list X)
    : result (list (list (list X * list Z))) :=
  if (L <? 3)%nat then Err InductiveValidationError
  else match Xl with
  | [] => Err InductiveValidationError
  | _ =>
      do ss <- (match Xu with
                | [] => Ok (map fitted (map (fun _ => start Xl yl) (seq 0 L)))
                | _ => demo_loop Xl yl Xu (Z.to_nat max_iter) (map (fun _ => start Xl yl) (seq 0 L))
                end);
      do _ <- resolve_classes (map (fun p : nat * learner =>
                fit (fst p) (length (l_calls (snd p)) - 1) (l_X (snd p)) (l_y (snd p))) (combine (seq 0 L) ss)) yl;
      Ok (map l_calls ss)
  end.
End Demo.

(* _combine_scores_numpy (186-205), one entry *)
Definition combined (idx : list (list nat)) (weights : list Q) (min_confidence : Q) (r c : nat) : Q :=
  let elig := if existsb (Qlt_bool min_confidence) weights then Qlt_bool min_confidence else fun _ => true in
  let voters := filter (fun p : list nat * Q => elig (snd p) && Nat.eqb (nth r (fst p) 0%nat) c) (combine idx weights) in
  let k := inject_Z (lenZ voters) in
  match voters with
  | [] => 0%Q
  | _ => (Qsum (map snd voters) / k * ((k + (1 # 2)) / (k + 1)))%Q
  end.

(* predict_proba and predict (470-524), given the learners' predictions *)
Definition demo_proba (classes : list Z) (weights : list Q) (min_confidence : Q) (n : nat) (preds : list (list Z))
    : result (list (list Q)) :=
  do idx <- encode_all classes preds;
  Ok (map (fun r => normalise_row (map (combined idx weights min_confidence r) (seq 0 (length classes)))) (seq 0 n)).
Definition demo_predict (classes : list Z) (weights : list Q) (min_confidence : Q) (n : nat) (preds : list (list Z))
    : result (list Z) :=
  do p <- demo_proba classes weights min_confidence n preds;
  look_up classes (map argmax p).
