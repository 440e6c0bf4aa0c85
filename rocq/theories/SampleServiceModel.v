(* Model of src/modssc/sampling/services/service.py (_sample_inductive, _sample_graph, _idx_to_mask)
   and src/modssc/sampling/result.py (validation).

   Not represented: fingerprints, timestamps, statistics, logging.  The three generators
   np.random.default_rng(seed_split / seed_label / seed_imb) are given by their initial states. *)
From Coq Require Import String.
From Verif Require Import Prelude FloatModel SamplingModel.
Local Open Scope list_scope.

(* plan.py:36-107 HoldoutSplitSpec / KFoldSplitSpec.  HoldoutSplitSpec.shuffle is kept although the
   code never reads it. *)
Inductive split_spec :=
| Holdout (test_fraction val_fraction : f64) (stratify shuffle : bool)
| KFold (k fold : Z) (stratify shuffle : bool) (val_fraction : f64).

(* plan.py:8-20 SamplingPolicy *)
Record policy := {
  respect_official_test : bool;
  use_official_graph_masks : bool;
  allow_override_official : bool
}.

(* plan.py:222-229 SamplingPlan *)
Record plan := {
  p_split : split_spec;
  p_labeling : labeling_spec;
  p_imbalance : imbalance_spec;
  p_policy : policy
}.

(* y[i] for an index inside the array *)
Definition label_at (y : list Z) (i : Z) : Z := nth (Z.to_nat i) y 0.

(* service.py:263-282, 289-308, 416-435: one of the two splitters on n samples *)
Definition run_split (R : Rng) (ord : argsort) (s : rng_state R) (y : list Z) (sp : split_spec)
  : result split :=
  let n := lenZ y in
  match sp with
  | Holdout tf vf st _ => make_holdout_split R ord s n (label_at y) tf vf st
  | KFold k fold st sh vf => make_kfold_split R ord s n (label_at y) k fold st sh vf
  end.

(* service.py:230-260: split of the train part only, the official test set is kept.  With k-fold the
   selected fold becomes the validation part. *)
Definition run_split_official (R : Rng) (ord : argsort) (s : rng_state R) (y : list Z)
    (sp : split_spec) : result (list Z * list Z) :=
  let n := lenZ y in
  match sp with
  | Holdout _ vf st _ =>
      do p <- make_holdout_split R ord s n (label_at y) f64_zero vf st; Ok (train p, val p)
  | KFold k fold st sh _ =>
      do p <- make_kfold_split R ord s n (label_at y) k fold st sh f64_zero; Ok (train p, test p)
  end.

(* result.py:12-39 SamplingResult, the part used by validation: dictionaries as association lists *)
Definition dict (A : Type) := list (string * A).
Definition get {A} (d : dict A) (k : string) : option A :=
  match find (fun p => String.eqb (fst p) k) d with Some p => Some (snd p) | None => None end.

Record inductive_result := { r_indices : dict (list Z); r_refs : dict string }.

(* result.py:51-62 _check_idx; integer dtype is implied *)
Definition check_idx (n_train : Z) (n_test : option Z) (base : string) (idx : list Z)
  : result unit :=
  match idx with
  | [] => Ok tt
  | _ =>
      match (if String.eqb base "train" then Some n_train else n_test) with
      | None => Err SamplingValidationError
      | Some max_ok =>
          if (minZ idx <? 0) || (max_ok <=? maxZ idx) then Err SamplingValidationError
          else if has_dup idx then Err SamplingValidationError
          else Ok tt
      end
  end.

Fixpoint check_all (n_train : Z) (n_test : option Z) (refs : dict string) (l : dict (list Z))
  : result unit :=
  match l with
  | [] => Ok tt
  | (name, idx) :: r =>
      let base := match get refs name with Some b => b | None => "train"%string end in
      do _ <- check_idx n_train n_test base idx; check_all n_train n_test refs r
  end.

Definition ref_of (refs : dict string) (name : string) : string :=
  match get refs name with Some b => b | None => "train"%string end.

Fixpoint list_eqb (a b : list Z) : bool :=
  match a, b with
  | [], [] => true
  | x :: r, y :: t => (x =? y) && list_eqb r t
  | _, _ => false
  end.

(* result.py:50-99 _validate_inductive *)
Definition validate_inductive (n_train : Z) (n_test : option Z) (r : inductive_result)
  : result unit :=
  do _ <- check_all n_train n_test (r_refs r) (r_indices r);
  match get (r_indices r) "train", get (r_indices r) "val", get (r_indices r) "test" with
  | Some tr, Some va, Some te =>
      if negb (String.eqb (ref_of (r_refs r) "train") "train")
         || negb (String.eqb (ref_of (r_refs r) "val") "train")
      then Err SamplingValidationError
      else if intersects tr va then Err SamplingValidationError
      else if String.eqb (ref_of (r_refs r) "test") "train" && (intersects tr te || intersects va te)
      then Err SamplingValidationError
      else
        match get (r_indices r) "train_labeled", get (r_indices r) "train_unlabeled" with
        | Some la, Some un =>
            if intersects la un then Err SamplingValidationError
            else if negb (list_eqb (sortZ (la ++ un)) (sortZ tr)) then Err SamplingValidationError
            else Ok tt
        | _, _ => Err SamplingValidationError
        end
  | _, _, _ => Err SamplingValidationError
  end.

(* service.py:213-312: train / val / test and the base of the test indices *)
Definition inductive_parts (R : Rng) (ord : argsort) (s_split : rng_state R) (p : plan)
    (y_train : list Z) (n_test : option Z) : result (list Z * list Z * list Z * string) :=
  match n_test with
  | Some nt =>
      if respect_official_test (p_policy p) then
        if negb (allow_override_official (p_policy p)) then
          do q <- run_split_official R ord s_split y_train (p_split p);
          Ok (fst q, snd q, arange nt, "test"%string)
        else
          do q <- run_split R ord s_split y_train (p_split p);
          Ok (train q, val q, test q, "train"%string)
      else
        do q <- run_split R ord s_split y_train (p_split p);
        Ok (train q, val q, test q, "train"%string)
  | None =>
      do q <- run_split R ord s_split y_train (p_split p);
      Ok (train q, val q, test q, "train"%string)
  end.

(* service.py:314-346: imbalance, labelling, assembling the result *)
Definition inductive_raw (R : Rng) (ord : argsort) (decay : f64 -> Z -> nat -> Z)
    (s_split s_label s_imb : rng_state R) (p : plan) (y_train : list Z) (n_test : option Z)
  : result inductive_result :=
  do ' (train_idx, val_idx, test_idx, test_ref)
    <- inductive_parts R ord s_split p y_train n_test;
  let lab := label_at y_train in
  do ' (train_adj, s_imb1)
    <- match i_apply_to (p_imbalance p) with
       | ApplyTrain => apply_imbalance R ord decay s_imb train_idx lab (p_imbalance p)
       | ApplyLabeled => Ok (train_idx, s_imb)
       end;
  do labeled0 <- select_labeled R ord s_label train_adj lab (p_labeling p);
  do labeled
    <- match i_apply_to (p_imbalance p) with
       | ApplyLabeled =>
           do q <- apply_imbalance R ord decay s_imb1 labeled0 lab (p_imbalance p); Ok (fst q)
       | ApplyTrain => Ok labeled0
       end;
  let unlabeled := setdiff1d train_adj labeled in
  Ok {| r_indices := [("train", sortZ train_adj); ("val", sortZ val_idx); ("test", sortZ test_idx);
                      ("train_labeled", sortZ labeled); ("train_unlabeled", sortZ unlabeled)]%string;
        r_refs := [("train", "train"); ("val", "train"); ("test", test_ref);
                   ("train_labeled", "train"); ("train_unlabeled", "train")]%string |}.

(* service.py:201-383 _sample_inductive *)
Definition sample_inductive (R : Rng) (ord : argsort) (decay : f64 -> Z -> nat -> Z)
    (s_split s_label s_imb : rng_state R) (p : plan) (y_train : list Z) (n_test : option Z)
  : result inductive_result :=
  do r <- inductive_raw R ord decay s_split s_label s_imb p y_train n_test;
  do _ <- validate_inductive (lenZ y_train) n_test r;
  Ok r.

(* ---------------------------------------------------------------------------------- graphs *)

(* service.py:478-482 _idx_to_mask, for indices already known to be in range; an index >= n raises
   IndexError (negative indices do not occur: they come from np.where or from a checked subset) *)
Definition idx_to_mask (n : Z) (idx : list Z) : result (list bool) :=
  if existsb (fun i => n <=? i) idx then Err IndexError
  else Ok (map (fun i => memZ i idx) (arange n)).

(* np.where(mask)[0] *)
Definition where_true (m : list bool) : list Z :=
  filter (fun i => nth (Z.to_nat i) m false) (arange (lenZ m)).

(* elementwise a & ~b with numpy broadcasting of one-dimensional arrays *)
Definition and_not (a b : list bool) : result (list bool) :=
  if Nat.eqb (length a) (length b) then Ok (map (fun p => fst p && negb (snd p)) (combine a b))
  else match a, b with
       | [x], _ => Ok (map (fun v => x && negb v) b)
       | _, [v] => Ok (map (fun x => x && negb v) a)
       | _, _ => Err ValueError
       end.

Record masks := { m_train : list bool; m_val : list bool; m_test : list bool;
                  m_labeled : list bool; m_unlabeled : list bool }.

Definition any_both (a b : list bool) : bool :=
  existsb (fun p => fst p && snd p) (combine a b).
Definition bools_eqb (a b : list bool) : bool :=
  Nat.eqb (length a) (length b) && forallb (fun p => Bool.eqb (fst p) (snd p)) (combine a b).

(* result.py:101-129 _validate_graph; the five keys and the bool dtype hold by construction *)
Definition validate_graph (n : Z) (m : masks) : result unit :=
  if existsb (fun l => negb (lenZ l =? n))
       [m_train m; m_val m; m_test m; m_labeled m; m_unlabeled m]
  then Err SamplingValidationError
  else if existsb (fun p => fst p && negb (snd p)) (combine (m_labeled m) (m_train m))
  then Err SamplingValidationError
  else if negb (bools_eqb (m_unlabeled m)
                  (map (fun p => fst p && negb (snd p)) (combine (m_train m) (m_labeled m))))
  then Err SamplingValidationError
  else if any_both (m_train m) (m_val m) || any_both (m_train m) (m_test m)
          || any_both (m_val m) (m_test m)
  then Err SamplingValidationError
  else Ok tt.

(* service.py:403-438: official masks (when the policy uses them and all three exist) or a split *)
Definition graph_parts (R : Rng) (ord : argsort) (s_split : rng_state R) (p : plan) (y : list Z)
    (official : option (list bool * list bool * list bool))
  : result (list bool * list bool * list bool) :=
  match (if use_official_graph_masks (p_policy p) then official else None) with
  | Some m => Ok m
  | None =>
      do q <- run_split R ord s_split y (p_split p);
      do tr <- idx_to_mask (lenZ y) (train q);
      do va <- idx_to_mask (lenZ y) (val q);
      do te <- idx_to_mask (lenZ y) (test q);
      Ok (tr, va, te)
  end.

(* y[train_idx] in select_labeled is evaluated only without fixed indices and for a non-empty train
   set; it raises IndexError when an official mask is longer than the label array *)
Definition labels_reachable (y : list Z) (spec : labeling_spec) (idx : list Z) : result unit :=
  match l_fixed spec with
  | Some _ => Ok tt
  | None => if existsb (fun i => lenZ y <=? i) idx then Err IndexError else Ok tt
  end.

(* service.py:441-459 *)
Definition graph_raw (R : Rng) (ord : argsort) (decay : f64 -> Z -> nat -> Z)
    (s_split s_label s_imb : rng_state R) (p : plan) (y : list Z)
    (official : option (list bool * list bool * list bool)) : result masks :=
  do ' (tr, va, te) <- graph_parts R ord s_split p y official;
  let train_idx := where_true tr in
  let lab := label_at y in
  do _ <- labels_reachable y (p_labeling p) train_idx;
  do labeled0 <- select_labeled R ord s_label train_idx lab (p_labeling p);
  do labeled
    <- match i_apply_to (p_imbalance p) with
       | ApplyLabeled =>
           do q <- apply_imbalance R ord decay s_imb labeled0 lab (p_imbalance p); Ok (fst q)
       | ApplyTrain => Ok labeled0
       end;
  do lm <- idx_to_mask (lenZ y) labeled;
  do um <- and_not tr lm;
  Ok {| m_train := tr; m_val := va; m_test := te; m_labeled := lm; m_unlabeled := um |}.

(* service.py:386-475 _sample_graph *)
Definition sample_graph (R : Rng) (ord : argsort) (decay : f64 -> Z -> nat -> Z)
    (s_split s_label s_imb : rng_state R) (p : plan) (y : list Z)
    (official : option (list bool * list bool * list bool)) : result masks :=
  do m <- graph_raw R ord decay s_split s_label s_imb p y official;
  do _ <- validate_graph (lenZ y) m;
  Ok m.
