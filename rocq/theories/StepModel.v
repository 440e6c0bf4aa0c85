(* Model of preprocessing steps: one-hot labels (src/modssc/preprocess/steps/labels/ensure_onehot.py),
   one-hot tabular features (src/modssc/preprocess/steps/tabular/one_hot.py), edge sparsification and
   edge weights (src/modssc/preprocess/steps/graph/edge_sparsify.py and attach_edge_weight.py). *)
From Coq Require Import String QArith.
From Verif Require Import Prelude TokModel.
Local Open Scope Z_scope.
Local Open Scope list_scope.
Local Notation length := List.length.

(* ---- labels.ensure_onehot ---- *)
(* raw.y, one or two dimensional; src/modssc/preprocess/steps/labels/ensure_onehot.py 17-18 flattens
   it (reshape(-1), row after row). *)
Inductive labels_in := Vector (y : list Z) | Matrix (y : list (list Z)).
Definition flatten (y : labels_in) : list Z :=
  match y with Vector l => l | Matrix m => concat m end.
(* src/modssc/preprocess/steps/labels/ensure_onehot.py 30: np.searchsorted(classes, v), left side,
   on ascending classes: the number of classes below v *)
Definition searchsorted (classes : list Z) (v : Z) : nat :=
  length (filter (fun c => c <? v) classes).
(* src/modssc/preprocess/steps/labels/ensure_onehot.py 16-33; the two arrays returned *)
Record onehot_out := { o_rows : list (list Z); o_labeled : list bool }.
Definition ensure_onehot (unlabeled : Z) (y : labels_in) : onehot_out :=
  let flat := flatten y in
  let labeled := map (fun v => negb (v =? unlabeled)) flat in
  let classes := uniqueZ (filter (fun v => negb (v =? unlabeled)) flat) in
  let C := length classes in
  {| o_rows := map (fun v => if negb (v =? unlabeled)
                             then update (repeat 0 C) (searchsorted classes v) (fun _ => 1)
                             else repeat 0 C) flat;
     o_labeled := labeled |}.

(* ---- tabular.one_hot ---- *)
Section Tabular.
(* V: the values of the table; F: float32 numbers.  missing is _is_missing
   (src/modssc/preprocess/steps/tabular/one_hot.py 32-41); number is float(val) followed by the
   conversion to float32, None when float raises (48-51, 61); text is str(val) (71). *)
Variables (V F : Type) (missing : V -> bool) (number : V -> option F) (text : V -> string).
(* sklearn's OneHotEncoder: the categories of one column, in its own order (sorted) *)
Variable categories : list string -> list string.

(* src/modssc/preprocess/steps/tabular/one_hot.py 15-29: a two dimensional array; d is its width *)
Record array2 := { a_width : nat; a_rows : list (list V) }.

(* src/modssc/preprocess/steps/tabular/one_hot.py 106, 141: one column of the selected rows; a column
   that does not exist raises IndexError *)
Fixpoint column (rows : list (list V)) (j : nat) : result (list V) :=
  match rows with
  | [] => Ok []
  | r :: rest => match nth_error r j with
                 | Some v => do vs <- column rest j; Ok (v :: vs)
                 | None => Err IndexError
                 end
  end.
(* src/modssc/preprocess/steps/tabular/one_hot.py 44-52 *)
Definition is_numeric (vals : list V) : bool :=
  forallb (fun v => missing v || match number v with Some _ => true | None => false end) vals.
(* src/modssc/preprocess/steps/tabular/one_hot.py 65-72 *)
Definition category (v : V) : string := if missing v then "__missing__"%string else text v.
(* src/modssc/preprocess/steps/tabular/one_hot.py 55-62; None is NaN, Err ValueError (or TypeError,
   the same for the caller) where float raises *)
Fixpoint numeric_column (vals : list V) : result (list (option F)) :=
  match vals with
  | [] => Ok []
  | v :: r =>
      do x <- (if missing v then Ok None
               else match number v with Some f => Ok (Some f) | None => Err ValueError end);
      do xs <- numeric_column r; Ok (x :: xs)
  end.

(* the state of a fitted step: numeric columns, and categorical columns with their categories *)
Record fitted := { f_numeric : list nat; f_cat : list (nat * list string) }.

(* src/modssc/preprocess/steps/tabular/one_hot.py 103-129, the columns in order *)
Fixpoint split_columns (rows : list (list V)) (js : list nat) : result fitted :=
  match js with
  | [] => Ok {| f_numeric := []; f_cat := [] |}
  | j :: r =>
      do vals <- column rows j;
      do rest <- split_columns rows r;
      if is_numeric vals
      then Ok {| f_numeric := j :: f_numeric rest; f_cat := f_cat rest |}
      else Ok {| f_numeric := f_numeric rest; f_cat := (j, categories (map category vals)) :: f_cat rest |}
  end.
(* src/modssc/preprocess/steps/tabular/one_hot.py 84-129: TabularOneHotStep.fit *)
Definition tab_fit (a : array2) (fit : list Z) : result fitted :=
  do rows <- take_rows (a_rows a) fit;
  split_columns rows (seq 0 (a_width a)).

(* a cell of the output: a number (NaN for None) or an indicator *)
Inductive cell_out := Num (x : option F) | Ind (b : bool).

(* sklearn's OneHotEncoder.transform on one column: one indicator per category; a value outside the
   categories gives zeros with handle_unknown="ignore" and raises ValueError otherwise *)
Fixpoint encode_column (ignore : bool) (cats : list string) (vals : list V) : result (list (list cell_out)) :=
  match vals with
  | [] => Ok []
  | v :: r =>
      if negb ignore && negb (existsb (String.eqb (category v)) cats) then Err ValueError
      else do rest <- encode_column ignore cats r;
           Ok (map (fun c => Ind (String.eqb c (category v))) cats :: rest)
  end.
(* np.column_stack / np.concatenate(axis=1): blocks of n rows side by side *)
Fixpoint beside (n : nat) (blocks : list (list (list cell_out))) : list (list cell_out) :=
  match blocks with
  | [] => repeat [] n
  | b :: r => map (fun p => fst p ++ snd p) (combine b (beside n r))
  end.
Fixpoint map_result {A B} (f : A -> result B) (l : list A) : result (list B) :=
  match l with [] => Ok [] | x :: r => do y <- f x; do ys <- map_result f r; Ok (y :: ys) end.

(* src/modssc/preprocess/steps/tabular/one_hot.py 131-158: TabularOneHotStep.transform; sklearn
   refuses an array without rows (ValueError) *)
Definition tab_transform (ignore : bool) (s : option fitted) (a : array2) : result (list (list cell_out)) :=
  match s with
  | None => Err PreprocessError
  | Some st =>
      if Nat.eqb (length (f_numeric st)) 0 && Nat.eqb (length (f_cat st)) 0 then Err PreprocessError else
      let n := length (a_rows a) in
      do nums <- map_result (fun j => do vals <- column (a_rows a) j;
                                      do xs <- numeric_column vals;
                                      Ok (map (fun x => [Num x]) xs)) (f_numeric st);
      do cats <- map_result (fun jc => do vals <- column (a_rows a) (fst jc); Ok (snd jc, vals)) (f_cat st);
      if negb (Nat.eqb (length (f_cat st)) 0) && Nat.eqb n 0 then Err ValueError else
      do blocks <- map_result (fun cv => encode_column ignore (fst cv) (snd cv)) cats;
      Ok (beside n (nums ++ blocks))
  end.
End Tabular.
Arguments Build_array2 {V}. Arguments a_width {V}. Arguments a_rows {V}.
Arguments Num {F}. Arguments Ind {F}.

(* ---- graph.edge_sparsify and graph.attach_edge_weight ---- *)
(* A two dimensional integer array is the list of its rows. *)
(* arr[:, take] for one row and arr[take, :] *)
Fixpoint keep {A} (take : list bool) (l : list A) : list A :=
  match take, l with
  | b :: t, x :: r => if b then x :: keep t r else keep t r
  | _, _ => []
  end.
(* src/modssc/preprocess/steps/graph/edge_sparsify.py 29-32, 35-38: draws is rng.random and pick is
   rng.integers(0, E) *)
Definition choose (draws : nat -> list Q) (pick : Z -> Z) (frac : Q) (E : nat) : list bool :=
  let take := map (fun u => negb (Qle_bool frac u)) (draws E) in
  if negb (existsb (fun b => b) take) && negb (Nat.eqb E 0)
  then update take (Z.to_nat (pick (Z.of_nat E))) (fun _ => true)
  else take.
(* src/modssc/preprocess/steps/graph/edge_sparsify.py 17-45; W is the type of weights; w[take] with a
   mask of another length raises IndexError *)
Definition edge_sparsify {W} (draws : nat -> list Q) (pick : Z -> Z) (frac : Q)
  (ei : list (list Z)) (weight : option (list W)) : result (list (list Z) * option (list W)) :=
  if negb (negb (Qle_bool frac 0) && Qle_bool frac 1) then Err PreprocessError else
  let two := Nat.eqb (length ei) 2 in
  let E := if two then length (nth 0 ei []) else length ei in
  let take := choose draws pick frac E in
  let out := if two then map (keep take) ei else keep take ei in
  match weight with
  | None => Ok (out, None)
  | Some w => if Nat.eqb (length w) (length take) then Ok (out, Some (keep take w)) else Err IndexError
  end.
(* src/modssc/preprocess/steps/graph/attach_edge_weight.py 16-25 *)
Definition attach_weight {W} (value : W) (present : option (list W)) (ei : list (list Z)) : list W :=
  match present with
  | Some w => w
  | None => repeat value (if Nat.eqb (length ei) 2 then length (nth 0 ei []) else length ei)
  end.
