(* Model of the remaining classic wrapper methods of modssc.inductive (numpy branches):
   src/modssc/inductive/methods/tri_training.py, s4vm.py, setred.py, democratic_co_learning.py, and of
   the predict_proba / predict methods shared by the wrappers.  The simplifications of InductModel.v
   apply; float32 and float64 results are exact rationals. *)
From Coq Require Import List ZArith Lia Bool QArith Qround Qminmax.
From Verif Require Import Prelude QFacts FloatModel InductModel.
Import ListNotations.
Open Scope Z_scope.

(* scores.max(axis=1)[i]; only read on rows with at least one column (numpy raises otherwise) *)
Definition top_score (r : list Q) : Q := match row_max r with Ok m => m | Err _ => 0%Q end.

(* Python's round(q) for an exact rational: ties to even *)
Definition round_even (q : Q) : Z := round_half_even_div (Qnum q) (Zpos (Qden q)).

(* ----- tri_training.py ----- *)

(* the others of learner i (line 124) *)
Definition others (i : nat) : nat * nat :=
  match i with O => (1, 2)%nat | 1%nat => (0, 2)%nat | _ => (0, 1)%nat end.

(* Lines 125-153: the rows added for a learner whose peers score the unlabelled rows sj and sk, with
   their labels.  The three [continue]s all leave the empty list. *)
Definition tri_pick (argsort : list Q -> list nat) (thr : option Q) (max_new : option Z)
    (sj sk : list (list Q)) (taken : list nat) : list (nat * Z) :=
  let agree := filter (fun r => Nat.eqb (argmax (nth r sj [])) (argmax (nth r sk []))) (seq 0 (length sj)) in
  let agree := filter (fun r => above thr (top_score (nth r sj [])) && above thr (top_score (nth r sk []))) agree in
  let idx := filter (fun r => negb (memN r taken)) agree in
  let idx := match max_new with
             | None => idx
             | Some m =>
                 rows 0%nat idx (py_take m (rev (argsort
                   (map (fun r => (top_score (nth r sj []) + top_score (nth r sk [])) / 2)%Q idx))))
             end in
  map (fun r => (r, Z.of_nat (argmax (nth r sj [])))) idx.

(* sorted(added_idx[i]) with the labels looked up in added_labels[i] *)
Fixpoint ins_row (p : nat * Z) (l : list (nat * Z)) : list (nat * Z) :=
  match l with
  | [] => [p]
  | q :: l' => if (fst p <=? fst q)%nat then p :: q :: l' else q :: ins_row p l'
  end.
Definition sort_rows (l : list (nat * Z)) : list (nat * Z) := fold_right ins_row [] l.

Record tri_run (X : Type) := {
  tri_calls : nat -> list (list X * list Z);    (* per learner, the training sets given to fit *)
  tri_added : nat -> list (nat * Z)             (* per learner, the rows added, with labels *)
}.
Arguments tri_calls {X}. Arguments tri_added {X}.

Section Tri.
Context {X M : Type}.
Variable d : X.
Variable fit : nat -> nat -> list X -> list Z -> M.        (* learner, number of earlier fits *)
Variable scores : M -> list X -> list (list Q).
Variable argsort : list Q -> list nat.
Variable choice : nat -> nat -> list nat.   (* learner, size: rng.choice(n_l, size, replace=True) *)

(* _train (107-115) *)
Definition tri_train (Xl : list X) (yl : list Z) (Xu : list X) (boot : list nat) (added : list (nat * Z))
    : list X * list Z :=
  let s := sort_rows added in
  (rows d Xl boot ++ rows d Xu (map fst s), rows 0 yl boot ++ map snd s).

(* Lines 117-155, one learner of a round: every learner has just been trained, [done j] counts its
   earlier fits. *)
Definition tri_new (thr : option Q) (max_new : option Z) (Xl : list X) (yl : list Z) (Xu : list X)
    (boot : nat -> list nat) (done : nat -> list (list X * list Z)) (added : nat -> list (nat * Z))
    (i : nat) : list (nat * Z) :=
  let train j := tri_train Xl yl Xu (boot j) (added j) in
  let model j := fit j (length (done j)) (fst (train j)) (snd (train j)) in
  tri_pick argsort thr max_new (scores (model (fst (others i))) Xu) (scores (model (snd (others i))) Xu)
    (map fst (added i)).

(* the while loop and the last training (117-160); [added] and [done] are indexed by learner *)
Fixpoint tri_loop (thr : option Q) (max_new : option Z) (Xl : list X) (yl : list Z) (Xu : list X)
    (boot : nat -> list nat) (fuel : nat)
    (done : nat -> list (list X * list Z)) (added : nat -> list (nat * Z)) : tri_run X :=
  let train i := tri_train Xl yl Xu (boot i) (added i) in
  let done' i := done i ++ [train i] in
  match fuel with
  | O => {| tri_calls := done'; tri_added := added |}
  | S f =>
      let new := tri_new thr max_new Xl yl Xu boot done added in
      if Nat.eqb (length (new 0%nat) + length (new 1%nat) + length (new 2%nat)) 0
      then {| tri_calls := fun i => done' i ++ [train i]; tri_added := added |}
      else tri_loop thr max_new Xl yl Xu boot f done' (fun i => added i ++ new i)
  end.

(* TriTrainingMethod.fit (64-165); ratio is bootstrap_ratio *)
Definition tri_fit (max_iter : Z) (ratio : Q) (thr : option Q) (max_new : option Z)
    (Xl : list X) (yl : list Z) (Xu : list X) : result (tri_run X) :=
  match Xl with
  | [] => Err InductiveValidationError
  | _ =>
      let n_boot := Z.to_nat (Z.max 1 (round_even (ratio * inject_Z (lenZ Xl))%Q)) in
      Ok (tri_loop thr max_new Xl yl Xu (fun i => choice i n_boot) (Z.to_nat max_iter)
            (fun _ => []) (fun _ => []))
  end.
End Tri.

(* ----- predict_proba and predict ----- *)

(* row_sum[row_sum == 0.0] = 1.0; scores / row_sum (e.g. pseudo_label.py 214-216) *)
Definition normalise_row (r : list Q) : list Q :=
  let s := Qsum r in if Qeq_bool s 0 then r else map (fun x => x / s)%Q r.

(* PseudoLabel, SelfTraining, S4VM, Setred, Supervised .predict_proba: the scores of one classifier *)
Definition single_proba (scores : list (list Q)) : list (list Q) := map normalise_row scores.

(* element-wise mean of n score rows *)
Definition add_rows (a b : list Q) : list Q := map (fun p => fst p + snd p)%Q (combine a b).
Definition mean_rows (rs : list (list Q)) : list Q :=
  match rs with
  | [] => []
  | r :: rest => map (fun x => x / inject_Z (lenZ rs))%Q (fold_left add_rows rest r)
  end.

(* a fitted classifier as predict_proba sees it: classes_ (None when it has no such attribute), the
   number of score columns, the scores *)
Record scored := { sc_classes : option (list Z); sc_cols : nat; sc_rows : list (list Q) }.

(* target[:, global_map[cls]] = s[:, local] for every class of the learner (tri_training.py 340-351) *)
Definition align_row (union classes : list Z) (r : list Q) : list Q :=
  map (fun c => fold_left (fun v p => if fst p =? c then snd p else v) (combine classes r) 0%Q) union.

Definition same_list (a b : list Z) : bool := if list_eq_dec Z.eq_dec a b then true else false.

Definition nth_rows_of (ms : list (list (list Q))) (i : nat) : list (list Q) := map (fun m => nth i m []) ms.

(* TriTrainingMethod.predict_proba (tri_training.py 279-389) on n query rows *)
Definition tri_proba (n : nat) (clfs : list scored) : result (list (list Q)) :=
  if existsb (fun s => match sc_classes s with
                       | Some c => negb (Nat.eqb (length c) (sc_cols s)) | None => false end) clfs
  then Err InductiveValidationError
  else
    let all := forallb (fun s => match sc_classes s with Some _ => true | None => false end) clfs in
    let shapes_differ := match clfs with
                         | [] => false
                         | s :: rest => existsb (fun t => negb (Nat.eqb (sc_cols t) (sc_cols s))) rest end in
    let classes s := match sc_classes s with Some c => c | None => [] end in
    let labels_differ := match clfs with
                         | [] => false
                         | s :: rest => existsb (fun t => negb (same_list (classes t) (classes s))) rest end in
    if shapes_differ || (all && labels_differ)
    then if negb all then Err InductiveValidationError
         else
           let union := uniqueZ (flat_map classes clfs) in
           Ok (map (fun i => normalise_row (mean_rows
                 (map (fun s => align_row union (classes s) (nth i (sc_rows s) [])) clfs))) (seq 0 n))
    else Ok (map (fun i => normalise_row (mean_rows (map (fun s => nth i (sc_rows s) []) clfs))) (seq 0 n)).

(* classes[idx] *)
Fixpoint look_up (classes : list Z) (idx : list nat) : result (list Z) :=
  match idx with
  | [] => Ok []
  | i :: rest =>
      match nth_error classes i with
      | None => Err IndexError
      | Some c => do cs <- look_up classes rest; Ok (c :: cs)
      end
  end.

(* TriTrainingMethod.predict (tri_training.py 391-399): the classes of the first classifier *)
Definition tri_predict (n : nat) (clfs : list scored) : result (list Z) :=
  do p <- tri_proba n clfs;
  let idx := map argmax p in
  match clfs with
  | s :: _ => match sc_classes s with
              | Some c => look_up c idx
              | None => Ok (map Z.of_nat idx)
              end
  | [] => Err RuntimeError
  end.

(* CoTrainingMethod._predict_scores_pair, predict_proba, predict (co_training.py 425-486) *)
Definition co_proba (n : nat) (s1 s2 : scored) : result (list (list Q)) :=
  if negb (Nat.eqb (sc_cols s1) (sc_cols s2)) then Err InductiveValidationError
  else if match sc_classes s1, sc_classes s2 with
          | Some a, Some b => negb (same_list a b) | _, _ => false end
  then Err InductiveValidationError
  else Ok (map (fun i => normalise_row (mean_rows [nth i (sc_rows s1) []; nth i (sc_rows s2) []])) (seq 0 n)).

Definition co_predict (n : nat) (s1 s2 : scored) : result (list Z) :=
  do p <- co_proba n s1 s2;
  match sc_classes s1 with
  | Some c => look_up c (map argmax p)
  | None => Ok (map (fun r => Z.of_nat (argmax r)) p)
  end.

(* ----- s4vm.py ----- *)
Section S4vm.
Context {X M : Type}.
Variable fit : nat -> list X -> list Z -> M.     (* fit 0 is the baseline, fit (i+1) candidate i *)
Variable scores : M -> list X -> list (list Q).
Variable predict : M -> list X -> list Z.
Variable argsort : list Q -> list nat.

(* number of agreeing positions: accuracy_score times the number of labelled rows.  The code compares
   float accuracies minus the baseline's; the model compares the counts. *)
Definition hits (y p : list Z) : Z := lenZ (filter (fun q => fst q =? snd q) (combine y p)).

(* y_u[order] = np.where(y_u[order] == a, b, a) *)
Definition flip_at (a b : Z) (order : list nat) (y : list Z) : list Z :=
  map (fun i => if memN i order then (if nth i y 0 =? a then b else a) else nth i y 0) (seq 0 (length y)).

(* Lines 102-111: the labels of candidate i *)
Definition s4_labels (rate : Q) (a b : Z) (conf : list Q) (pred : list Z) (i : nat) : list Z :=
  let flip_rate := Qmin (rate * inject_Z (Z.of_nat i + 1)) (1 # 2) in
  let n_flip := round_even (flip_rate * inject_Z (lenZ pred)) in
  if n_flip <=? 0 then pred
  else flip_at a b (firstn (Z.to_nat n_flip) (argsort conf)) pred.

(* S4VMMethod.fit (58-125).  Returns the training sets in call order and the index of the kept model
   (0 is the baseline). *)
Definition s4_fit (k : Z) (rate : Q) (Xl : list X) (yl : list Z) (Xu : list X)
    : result (list (list X * list Z) * nat) :=
  match uniqueZ yl with
  | [a; b] =>
      let base := fit 0 Xl yl in
      let base_hits := hits yl (predict base Xl) in
      let pred := predict base Xu in
      do conf <- row_maxima (scores base Xu);
      let sets := map (fun i => (Xl ++ Xu, yl ++ s4_labels rate a b conf pred i)) (seq 0 (Z.to_nat k)) in
      let acc i := hits yl (predict (fit (S i) (Xl ++ Xu) (yl ++ s4_labels rate a b conf pred i)) Xl) in
      let best := fold_left (fun bst i => if snd bst <? acc i - base_hits then (S i, acc i - base_hits) else bst)
                    (seq 0 (Z.to_nat k)) (0%nat, 0) in
      Ok ((Xl, yl) :: sets, fst best)
  | _ => Err InductiveValidationError
  end.
End S4vm.

(* ----- setred.py ----- *)

(* _allocate_per_class (107-126) *)
Definition bump_first (n : nat) (order : list nat) (base : list Z) : list Z :=
  fold_left (fun b i => update b i Z.succ) (firstn n order) base.

Definition allocate_per_class (argsort : list Q -> list nat) (total : Z) (counts : list Z) : list Z :=
  if total <=? 0 then map (fun _ => 0) counts
  else if sumZ counts <=? 0 then map (fun _ => 0) counts
  else
    let raw := map (fun c => inject_Z c / inject_Z (sumZ counts) * inject_Z total)%Q counts in
    let base := map Qfloor raw in
    let remainder := total - sumZ base in
    if 0 <? remainder
    then bump_first (Z.to_nat remainder)
           (rev (argsort (map (fun q => q - inject_Z (Qfloor q))%Q raw))) base
    else base.

(* _select_candidates_by_class (129-158) *)
Definition setred_candidates (argsort : list Q -> list nat) (scs : list (list Q)) (pred : list Z)
    (labels counts : list Z) (max_new : Z) (thr : option Q) : list nat :=
  let total := Z.min max_new (lenZ scs) in
  if total <=? 0 then []
  else
    let per := allocate_per_class argsort total counts in
    sorted_set (flat_map (fun lk : Z * Z =>
      let '(label, k) := lk in
      if k <=? 0 then []
      else
        let idx := filter (fun r => (nth r pred 0 =? label) && above thr (top_score (nth r scs [])))
                     (seq 0 (length pred)) in
        rows 0%nat idx (firstn (Z.to_nat k) (rev (argsort (map (fun r => top_score (nth r scs [])) idx)))))
      (combine labels per)).

Section Setred.
Context {X M : Type}.
Variable d : X.
Variable fit : nat -> list X -> list Z -> M.
Variable scores : M -> list X -> list (list Q).
Variable predict : M -> list X -> list Z.
Variable argsort : list Q -> list nat.
(* rng.choice(n, size, replace=False) of round r *)
Variable choice : nat -> nat -> nat -> list nat.
(* _filter_setred_numpy on X_all, y_all, the number of labelled rows in front: one verdict per
   candidate.  See the graph part below; here arbitrary. *)
Variable edit : list X -> list Z -> nat -> list bool.

Definition mask_select {A} (l : list A) (keep : list bool) : list A :=
  map fst (filter snd (combine l keep)).

(* the while loop and the last fit (279-358); a model is fitted before the loop *)
Fixpoint setred_loop (pool_size max_new : option Z) (min_new : Z) (thr : option Q) (fuel : nat)
    (done : list (list X * list Z)) (m : M) (Xl : list X) (yl : list Z) (Xu : list X) : run X :=
  let stop := {| calls := done ++ [(Xl, yl)]; leftover := Xu |} in
  match fuel with
  | O => stop
  | S f =>
      let n := lenZ Xu in
      if n =? 0 then stop else
      let ps := Z.min (match pool_size with Some p => p | None => n end) n in
      if ps <=? 0 then stop else
      let pool := if ps <? n then choice (length done) (Z.to_nat n) (Z.to_nat ps) else seq 0 (Z.to_nat n) in
      let X_pool := rows d Xu pool in
      let scs := scores m X_pool in
      let pred := predict m X_pool in
      let labels := uniqueZ yl in
      let counts := map (fun l => countZ l yl) labels in
      let total := match max_new with Some k => Z.min ps k | None => ps end in
      let sel := setred_candidates argsort scs pred labels counts total thr in
      match sel with
      | [] => stop
      | _ =>
          let X0 := rows d X_pool sel in
          let y0 := rows 0 pred sel in
          let keep := edit (Xl ++ X0) (yl ++ y0) (length Xl) in
          let kept := lenZ (filter (fun b => b) keep) in
          if kept <? min_new then stop
          else
            let Xl' := Xl ++ mask_select X0 keep in
            let yl' := yl ++ mask_select y0 keep in
            setred_loop pool_size max_new min_new thr f (done ++ [(Xl', yl')])
              (fit (length done) Xl' yl') Xl' yl'
              (drop_rows d Xu (rows 0%nat pool (mask_select sel keep)))
      end
  end.

(* SetredMethod.fit (226-361); the theta and knn_k checks belong to [edit] *)
Definition setred_fit (max_iter : Z) (pool_size max_new : option Z) (min_new : Z) (thr : option Q)
    (Xl : list X) (yl : list Z) (Xu : list X) : result (run X) :=
  if min_new <? 0 then Err InductiveValidationError
  else match Xu with
  | [] => Ok {| calls := [(Xl, yl)]; leftover := [] |}
  | _ =>
      match Xl with
      | [] => Err InductiveValidationError
      | _ => Ok (setred_loop pool_size max_new min_new thr (Z.to_nat max_iter) [(Xl, yl)] (fit 0 Xl yl) Xl yl Xu)
      end
  end.
End Setred.

(* ----- setred.py: the neighbourhood graph and the cut-edge filter -----
   [dist] is the n x n matrix of _pairwise_distances_numpy (44-50), taken as an argument. *)
Definition entry (dist : list (list Q)) (i j : nat) : Q := nth j (nth i dist []) 0%Q.

(* a neighbour list is the sorted set of the nodes added while the edges are enumerated *)
Definition neighbours_of (edges : list (nat * nat)) (i : nat) : list nat :=
  sorted_set (flat_map (fun e : nat * nat =>
    (if Nat.eqb (fst e) i then [snd e] else []) ++ (if Nat.eqb (snd e) i then [fst e] else [])) edges).

Definition Qlt_bool (a b : Q) : bool := negb (Qle_bool b a).

(* _build_rng_graph_numpy (52-63) *)
Definition rng_edges (dist : list (list Q)) : list (nat * nat) :=
  let n := length dist in
  flat_map (fun i => flat_map (fun j =>
    if existsb (fun k => Qlt_bool (entry dist i k) (entry dist i j) && Qlt_bool (entry dist j k) (entry dist i j)) (seq 0 n)
    then [] else [(i, j)]) (seq (S i) (n - S i))) (seq 0 n).

(* _build_knn_graph_numpy (66-76); max(1, min(k, max(0, n - 1))) *)
Definition knn_edges (argsort : list Q -> list nat) (dist : list (list Q)) (k : Z) : list (nat * nat) :=
  let n := lenZ dist in
  let k' := Z.max 1 (Z.min k (Z.max 0 (n - 1))) in
  flat_map (fun i => map (fun j => (i, j)) (firstn (Z.to_nat k') (skipn 1 (argsort (nth i dist [])))))
    (seq 0 (length dist)).

(* _edge_weights_numpy (94-106) *)
Inductive edge_mode := Uniform | Distance | InverseDistance.
Definition edge_weight (mode : edge_mode) (eps d : Q) : Q :=
  match mode with Uniform => 1 | Distance => d | InverseDistance => 1 / (d + eps) end%Q.

(* o <= mu + z * sqrt(sigma2), decided without a square root *)
Definition below_bound (o mu z sigma2 : Q) : bool :=
  let e := (o - mu)%Q in
  if Qle_bool 0 z then Qle_bool e 0 || Qle_bool (e * e) (z * z * sigma2)
  else Qle_bool e 0 && Qle_bool (z * z * sigma2) (e * e).

(* _filter_setred_numpy (161-192) for one row i of X_all: [prob] is class_probs.get(label, 0.0), [z]
   the quantile NormalDist().inv_cdf(theta) *)
Definition setred_keep (nbrs : list nat) (dist : list (list Q)) (mode : edge_mode) (eps z : Q)
    (prob : Z -> Q) (y : list Z) (i : nat) : bool :=
  match nbrs with
  | [] => true
  | _ =>
      let w j := edge_weight mode eps (entry dist i j) in
      let li := nth i y 0 in
      let o := Qsum (map w (filter (fun j => negb (nth j y 0 =? li)) nbrs)) in
      let sum_w := Qsum (map w nbrs) in
      let sum_w2 := Qsum (map (fun j => w j * w j)%Q nbrs) in
      let p := prob li in
      let mu := ((1 - p) * sum_w)%Q in
      let sigma2 := (p * (1 - p) * sum_w2)%Q in
      if Qle_bool sigma2 0 then Qle_bool o mu else below_bound o mu z sigma2
  end.

(* the filter over the candidates, rows n_l .. n_all - 1 *)
Definition setred_filter (edges : list (nat * nat)) (dist : list (list Q)) (mode : edge_mode) (eps z : Q)
    (prob : Z -> Q) (y : list Z) (n_l : nat) : list bool :=
  map (fun i => setred_keep (neighbours_of edges i) dist mode eps z prob y i) (seq n_l (length dist - n_l)).

(* the call in the loop (313-334): distances and graph of X_all, class frequencies of the labelled rows *)
Definition setred_edit {X} (dist : list X -> list (list Q)) (graph : list (list Q) -> list (nat * nat))
    (mode : edge_mode) (eps z : Q) (X_all : list X) (y_all : list Z) (n_l : nat) : list bool :=
  setred_filter (graph (dist X_all)) (dist X_all) mode eps z
    (fun l => (inject_Z (countZ l (firstn n_l y_all)) / inject_Z (Z.of_nat n_l))%Q) y_all n_l.
