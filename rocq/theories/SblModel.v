(* Model of the supervised baseline, src/modssc/inductive/methods/supervised.py, with the helpers it calls in
   src/modssc/inductive/methods/helpers/classifier_bridge.py.  Datasets and values are those of AdaptModel.v; torch is installed. *)
From Coq Require Import String QArith.
From Verif Require Import Prelude AdaptModel EnsembleModel.
Local Open Scope string_scope.
Local Open Scope Z_scope.
Local Open Scope list_scope.
Local Notation length := List.length.

(* what a classifier returns as scores: an array (or what np.asarray makes one of) or a tensor, with its shape and its rows *)
Inductive scored := SArr (shape : list nat) (rows : list (list Q)) | STen (dev : device) (shape : list nat) (rows : list (list Q)).
Definition s_shape (s : scored) : list nat := match s with SArr sh _ | STen _ sh _ => sh end.
Definition s_rows (s : scored) : list (list Q) := match s with SArr _ r | STen _ _ r => r end.

(* detect_backend with is_torch_tensor (classifier_bridge.py lines 53-63 and 70-77) *)
Definition detect_backend (v : val) : result string :=
  match v with
  | Arr _ _ _ => Ok "numpy"
  | Ten _ _ _ _ => Ok "torch"
  | Dict items => if existsb (fun kv => is_tensor (snd kv)) items then Ok "torch" else Err InductiveValidationError
  | _ => Err InductiveValidationError
  end.
(* ensure_classifier_backend (classifier_bridge.py lines 120-130) *)
Definition ensure_classifier_backend (asked backend : string) : result unit :=
  if String.eqb backend "torch" then (if String.eqb asked "torch" then Ok tt else Err InductiveValidationError)
  else if String.eqb backend "numpy" then (if String.eqb asked "torch" then Err InductiveValidationError else Ok tt)
  else Err InductiveValidationError.
(* ensure_cpu_device (classifier_bridge.py lines 24-28) *)
Definition ensure_cpu_device (dev : string) : result unit := if String.eqb dev "cpu" || String.eqb dev "auto" then Ok tt else Err InductiveValidationError.
(* the checks of the shape and of the numbers that both label helpers make (classifier_bridge.py lines 82-87 and 95-106); the
   unsigned types of torch other than uint8 count as NotInt *)
Definition check_labels (s : list nat) (dt : numbers) : result unit :=
  if negb (Nat.eqb (length s) 1) then Err InductiveValidationError
  else if Nat.eqb (nth 0 s 0%nat) 0 then Err InductiveValidationError
  else match dt with NotInt => Err InductiveValidationError | _ => Ok tt end.
(* ensure_1d_labels (classifier_bridge.py lines 80-88), after the numpy adapter: y is an array *)
Definition ensure_1d_labels (y : val) : result unit := match y with Arr _ s dt => check_labels s dt | _ => Err InductiveValidationError end.
(* ensure_1d_labels_torch (classifier_bridge.py lines 91-107) *)
Definition ensure_1d_labels_torch (y : val) : result unit := match y with Ten _ s dt _ => check_labels s dt | _ => Err InductiveValidationError end.
(* class_to_idx[c] of a dict made from enumerate(classes): the last position of c (classifier_bridge.py line 149) *)
Fixpoint last_index (c : Z) (classes : list Z) : option nat :=
  match classes with
  | [] => None
  | a :: r => match last_index c r with Some i => Some (S i) | None => if a =? c then Some O else None end
  end.
(* np.eye(k)[i] (classifier_bridge.py line 151) *)
Definition eye_row (k i : nat) : list Q := map (fun j => if Nat.eqb j i then 1%Q else 0%Q) (seq 0 k).
(* np.vectorize(class_to_idx.get, otypes=[int]): None is no int (classifier_bridge.py line 150) *)
Fixpoint class_positions (classes pred : list Z) : result (list nat) :=
  match pred with
  | [] => Ok []
  | c :: r => match last_index c classes with None => Err TypeError | Some i => do l <- class_positions classes r; Ok (i :: l) end
  end.
(* sorted distinct values (np.unique) *)
Fixpoint insert (c : Z) (l : list Z) : list Z := match l with [] => [c] | a :: r => if c <? a then c :: l else if c =? a then l else a :: insert c r end.
Definition distinct (l : list Z) : list Z := fold_right insert [] l.

Section Baseline.
(* P: the settings of the specification other than the backend; C: the states of classifiers *)
Variables P C : Type.
Record spec := { sp_backend : string; sp_rest : P }.
Variable available : string -> bool.
Variable np_device : option device.
Variable as_long : nat -> nat.
Variable as_tensor : val -> device -> result val.
(* build_classifier (classifier_bridge.py lines 110-117): the classifier the registry makes for the specification and the seed (C78, C79) *)
Variable create : spec -> Z -> result C.
(* clf.fit(X, y) *)
Variable train : C -> val -> val -> result C.
(* the methods a classifier may have, with what they return; predict gives a shape and labels *)
Variable scores_of proba_of : C -> option (val -> result scored).
Variable predict_of : C -> option (val -> result (list nat * list Z)).
Variable classes_of : C -> option (list Z).

(* SupervisedMethod.fit up to the classifier it makes (supervised.py lines 51-94).  [d] is None for a data argument without X_l;
   the counts of unlabeled rows are only logged, but computed (lines 66 and 83). *)
Definition fitted (sp : spec) (d0 : option data) (dev : string) (seed : Z) : result (C * string) :=
  match d0 with
  | None => Err AttributeError
  | Some d =>
    do backend <- detect_backend (d_xl d);
    do _ <- ensure_classifier_backend (sp_backend sp) backend;
    if String.eqb backend "numpy" then
      do _ <- ensure_cpu_device dev;
      do ds <- to_numpy_dataset (Some d);
      do s <- np_shape (d_xl ds);
      if Nat.eqb (nth 0 s 0%nat) 0 then Err InductiveValidationError else
      do _ <- ensure_1d_labels (d_yl ds);
      do clf <- create sp seed;
      do clf' <- train clf (d_xl ds) (d_yl ds);
      Ok (clf', backend)
    else
      do ds <- to_torch_dataset available np_device as_long as_tensor (Some d) (Some dev) true;
      do n <- size_of 0 (d_xl ds);
      if Nat.eqb n 0 then Err InductiveValidationError else
      do _ <- ensure_1d_labels_torch (d_yl ds);
      do _ <- match d_xu ds with Nothing => Ok 0%nat | v => size_of 0 v end;
      do clf <- create sp seed;
      do clf' <- train clf (d_xl ds) (d_yl ds);
      Ok (clf', backend)
  end.

(* the attributes _clf and _backend (supervised.py lines 46-49) *)
Record object := { o_clf : option C; o_backend : option string }.
Definition new_object : object := {| o_clf := None; o_backend := None |}.
(* fit assigns them at the end (supervised.py lines 74-75 and 91-92): a fit that raises leaves them *)
Definition fit (sp : spec) (o : object) (d : option data) (dev : string) (seed : Z) : object * result unit :=
  match fitted sp d dev seed with
  | Ok (c, b) => ({| o_clf := Some c; o_backend := Some b |}, Ok tt)
  | Err e => (o, Err e)
  end.

(* np.asarray of scores, and their rank (classifier_bridge.py lines 153-156): a tensor of an accelerator is no array *)
Definition as_scores (s : scored) : result scored :=
  do s' <- match s with STen (Acc _ _) _ _ => Err TypeError | STen Cpu sh r => Ok (SArr sh r) | SArr _ _ => Ok s end;
  if Nat.eqb (length (s_shape s')) 2 then Ok s' else Err InductiveValidationError.
(* _predict_scores_numpy (classifier_bridge.py lines 133-156); a shape of rank 1 gives a table, any other one is refused *)
Definition scores_numpy (c : C) (X : val) : result scored :=
  match X with
  | Arr _ _ _ =>
    match scores_of c, proba_of c with
    | Some f, _ => do s <- f X; as_scores s
    | None, Some f => do s <- f X; as_scores s
    | None, None =>
      match predict_of c with
      | None => Err InductiveValidationError
      | Some f =>
        do p <- f X;
        let classes := match classes_of c with Some cs => cs | None => distinct (snd p) end in
        do idx <- class_positions classes (snd p);
        as_scores (SArr (fst p ++ [length classes]) (map (eye_row (length classes)) idx))
      end
    end
  | _ => Err InductiveValidationError
  end.
(* the tensor whose device is compared (classifier_bridge.py line 178); an array has no device before numpy 2 *)
Definition place (v : val) : result device := match features v with Ten _ _ _ dv => Ok dv | _ => Err AttributeError end.
(* _predict_scores_torch (classifier_bridge.py lines 159-181) *)
Definition scores_torch (c : C) (X : val) : result scored :=
  do _ <- match X with
          | Ten _ _ _ _ => Ok tt
          | Dict items => match lookup "x" items with Some _ => Ok tt | None => Err InductiveValidationError end
          | _ => Err InductiveValidationError
          end;
  do s <- match scores_of c, proba_of c with Some f, _ => f X | None, Some f => f X | None, None => Err InductiveValidationError end;
  match s with
  | SArr _ _ => Err InductiveValidationError
  | STen dv sh _ =>
    if negb (Nat.eqb (length sh) 2) then Err InductiveValidationError
    else do dv' <- place X; if device_eqb dv dv' then Ok s else Err InductiveValidationError
  end.
(* predict_scores (classifier_bridge.py lines 184-189) *)
Definition predict_scores (c : C) (X : val) (backend : string) : result scored :=
  if String.eqb backend "numpy" then scores_numpy c X else if String.eqb backend "torch" then scores_torch c X else Err InductiveValidationError.
(* the checks predict_proba and predict share (supervised.py lines 97-101 and 113-117) *)
Definition ready (o : object) (X : val) : result (C * string) :=
  match o_clf o with
  | None => Err RuntimeError
  | Some c =>
    do b <- detect_backend X;
    match o_backend o with
    | Some b' => if String.eqb b b' then Ok (c, b) else Err InductiveValidationError
    | None => Ok (c, b)
    end
  end.
(* predict_proba (supervised.py lines 96-110): exact rationals instead of float32 *)
Definition predict_proba (o : object) (X : val) : result scored :=
  do ' (c, b) <- ready o X;
  do s <- predict_scores c X b;
  Ok match s with SArr sh r => SArr sh (map normalise_row r) | STen dv sh r => STen dv sh (map normalise_row r) end.
(* predict (supervised.py lines 112-118) *)
Definition predict (o : object) (X : val) : result (list nat * list Z) :=
  do ' (c, _) <- ready o X; match predict_of c with Some f => f X | None => Err AttributeError end.

(* the life of one object: fits, and predictions, which change nothing *)
Inductive op := Fit (d : option data) (dev : string) (seed : Z) | Proba (X : val) | Predict (X : val).
Definition after (sp : spec) (o : object) (p : op) : object := match p with Fit d dev seed => fst (fit sp o d dev seed) | _ => o end.
Definition life (sp : spec) (ops : list op) : object := fold_left (after sp) ops new_object.
End Baseline.
Arguments sp_backend {P}. Arguments sp_rest {P}. Arguments o_clf {C}. Arguments o_backend {C}.
