(* Model of the torchvision data provider (src/modssc/data_loader/providers/torchvision.py).  Text is ASCII; labels are integers; the limits are ProvModel.v.
   A data set class is what its constructor answers to the keyword arguments; samples of the sequence protocol are read by position, as every torchvision data set is. *)
From Coq Require Import String Ascii.
From Verif Require Import Prelude PyValue RegModel OmlModel ProvModel.
Local Open Scope string_scope.
Local Open Scope Z_scope.
Local Open Scope list_scope.
Local Notation length := List.length.

Section Tvd.
(* str() of values *)
Variable o : Oracle.
Record identity := { t_uri : string; t_id : text; t_filter : option (list pyval); t_max_train : pyval; t_max_test : pyval; t_seed : pyval; t_task : string }.
(* resolve (torchvision.py lines 40-58); reference: the text after "torchvision:" *)
Definition resolve (reference : text) (options : pydict) : identity :=
  let c := strip reference in
  {| t_uri := ("torchvision:" ++ str c)%string; t_id := c; t_filter := normalize_filter (none_get options "class_filter");
     t_max_train := none_get options "max_train_samples"; t_max_test := none_get options "max_test_samples"; t_seed := none_get options "seed";
     t_task := py_str o (get_else options "task" (PStr "classification")) |}.

Context {A : Type}.
(* a sample read by position: at least two entries, or fewer *)
Inductive sample := Pair (x : A) (y : Z) | Short (n : nat).
Record dataset := { d_data : option (list A); d_targets : option (list Z); d_item : nat -> result sample }.
(* the keyword that chooses the part: train=True or False, or split="train" or "test" *)
Inductive keyword := ByTrain (b : bool) | BySplit (s : string).
Definition maker := keyword -> result dataset.
(* _make_train_test (torchvision.py lines 98-108), with the calls it makes *)
Definition two (mk : maker) (a b : keyword) : result (dataset * dataset) * list keyword :=
  match mk a with
  | Err e => (Err e, [a])
  | Ok tr => match mk b with Err e => (Err e, [a; b]) | Ok te => (Ok (tr, te), [a; b]) end
  end.
Definition make_train_test (mk : maker) : result (dataset * dataset) * list keyword :=
  let '(r, calls) := two mk (ByTrain true) (ByTrain false) in
  match r with
  | Err TypeError => let '(r', calls') := two mk (BySplit "train") (BySplit "test") in (r', calls ++ calls')
  | _ => (r, calls)
  end.
(* for sample in dataset (torchvision.py lines 117-122): positions from 0 until an IndexError; OutOfFuel stands for a data set without end *)
Fixpoint iterate (item : nat -> result sample) (fuel i : nat) : result (list A * list Z) :=
  match fuel with
  | O => Err OutOfFuel
  | S fuel =>
    match item i with
    | Err IndexError => Ok ([], [])
    | Err e => Err e
    | Ok (Short _) => Err IndexError
    | Ok (Pair x y) => do ' (X, Y) <- iterate item fuel (S i); Ok (x :: X, y :: Y)
    end
  end.
(* _extract_xy (torchvision.py lines 111-122) *)
Definition extract_xy (fuel : nat) (d : dataset) : result (list A * list Z) :=
  match d_data d, d_targets d with
  | Some x, Some y => Ok (x, y)
  | _, _ => iterate (d_item d) fuel 0
  end.
(* load_canonical (torchvision.py lines 60-95); library: the data set classes by name, None without torchvision *)
Definition load_tv (shuffle : Z -> nat -> list nat) (library : option (text -> option maker)) (fuel : nat) (id : identity) (cf : option (list Z)) (max_train max_test seed : option Z)
    : result ((list A * list Z) * option (list A * list Z)) * list keyword :=
  match library with
  | None => (Err OptionalDependencyError, [])
  | Some lib =>
    match lib (t_id id) with
    | None => (Err AttributeError, [])
    | Some mk =>
      let '(r, calls) := make_train_test mk in
      (do ' (tr, te) <- r; do a <- extract_xy fuel tr; do b <- extract_xy fuel te; load_splits shuffle cf max_train max_test seed a (Some b), calls)
    end
  end.
End Tvd.
