(* Model of the statistics of a sample (src/modssc/sampling/stats.py and their use in src/modssc/sampling/services/service.py).  Labels are integers, and
   the keys str(c) of a dictionary of classes are those integers. *)
From Coq Require Import String.
From Verif Require Import Prelude FloatModel SamplingModel SampleServiceModel.
Local Open Scope string_scope.
Local Open Scope Z_scope.
Local Open Scope list_scope.
Local Notation length := List.length.

Record dist := { d_n : Z; d_classes : list (Z * Z) }.
(* y[i] and y[idx]: negative indices count from the end *)
Definition item (y : list Z) (i : Z) : result Z :=
  if (i <? - lenZ y) || (lenZ y <=? i) then Err IndexError else Ok (nth (Z.to_nat (if i <? 0 then i + lenZ y else i)) y 0).
Fixpoint take (y : list Z) (idx : list Z) : result (list Z) := match idx with [] => Ok [] | i :: r => do v <- item y i; do t <- take y r; Ok (v :: t) end.
(* class_distribution (stats.py lines 11-19) *)
Definition class_distribution (y idx : list Z) : result dist :=
  match idx with
  | [] => Ok {| d_n := 0; d_classes := [] |}
  | _ => do y_sub <- take y idx; let '(classes, counts) := class_counts y_sub in Ok {| d_n := lenZ idx; d_classes := combine classes counts |}
  end.

(* policy_info (service.py lines 348-358) *)
Record policy_info := { i_respect : bool; i_override : bool; i_has_official : bool; i_official_ignored : bool; i_test_ref : string }.
Definition policy_of (p : policy) (has_official : bool) (test_ref : string) : policy_info :=
  {| i_respect := respect_official_test p; i_override := allow_override_official p; i_has_official := has_official;
     i_official_ignored := has_official && respect_official_test p && allow_override_official p; i_test_ref := test_ref |}.
Record inductive_stats := { s_policy : policy_info; s_train : dist; s_val : dist; s_labeled : dist; s_unlabeled : Z; s_test : dist }.
(* build_inductive_stats (stats.py lines 22-43) *)
Definition build_inductive_stats (y_train train_idx val_idx : list Z) (test_ref : string) (y_test : option (list Z)) (test_idx labeled_idx unlabeled_idx : list Z)
    (pol : policy_info) : result inductive_stats :=
  do tr <- class_distribution y_train train_idx;
  do va <- class_distribution y_train val_idx;
  do la <- class_distribution y_train labeled_idx;
  do te <- (if String.eqb test_ref "train" then class_distribution y_train test_idx
            else class_distribution (match y_test with Some y => y | None => y_train end) test_idx);
  Ok {| s_policy := pol; s_train := tr; s_val := va; s_labeled := la; s_unlabeled := lenZ unlabeled_idx; s_test := te |}.
(* indices[name] *)
Definition part (r : inductive_result) (name : string) : list Z := match get (r_indices r) name with Some l => l | None => [] end.
(* _sample_inductive with its statistics (service.py lines 201-383) *)
Definition sample_inductive_stats (R : Rng) (ord : argsort) (decay : f64 -> Z -> nat -> Z) (s_split s_label s_imb : rng_state R) (p : plan) (y_train : list Z)
    (y_test : option (list Z)) : result (inductive_result * inductive_stats) :=
  let n_test := option_map lenZ y_test in
  do r <- inductive_raw R ord decay s_split s_label s_imb p y_train n_test;
  let test_ref := ref_of (r_refs r) "test" in
  do st <- build_inductive_stats y_train (part r "train") (part r "val") test_ref y_test (part r "test") (part r "train_labeled") (part r "train_unlabeled")
             (policy_of (p_policy p) (match y_test with Some _ => true | None => false end) test_ref);
  do _ <- validate_inductive (lenZ y_train) n_test r;
  Ok (r, st).

Record graph_stats := { g_nodes : Z; g_train : Z; g_val : Z; g_test : Z; g_labeled : Z; g_unlabeled : Z; g_dist : dist }.
(* mask_count (stats.py lines 49-50) *)
Definition mask_count (m : list bool) : Z := lenZ (filter (fun b => b) m).
(* build_graph_stats (stats.py lines 46-61) *)
Definition build_graph_stats (m : masks) (y labeled_idx : list Z) : result graph_stats :=
  do d <- class_distribution y labeled_idx;
  Ok {| g_nodes := lenZ y; g_train := mask_count (m_train m); g_val := mask_count (m_val m); g_test := mask_count (m_test m);
        g_labeled := mask_count (m_labeled m); g_unlabeled := mask_count (m_unlabeled m); g_dist := d |}.
(* _sample_graph with its statistics (service.py lines 403-475): SampleServiceModel.graph_raw with the labelled indices kept *)
Definition sample_graph_stats (R : Rng) (ord : argsort) (decay : f64 -> Z -> nat -> Z) (s_split s_label s_imb : rng_state R) (p : plan) (y : list Z)
    (official : option (list bool * list bool * list bool)) : result (masks * graph_stats) :=
  do ' (tr, va, te) <- graph_parts R ord s_split p y official;
  let train_idx := where_true tr in
  let lab := label_at y in
  do _ <- labels_reachable y (p_labeling p) train_idx;
  do labeled0 <- select_labeled R ord s_label train_idx lab (p_labeling p);
  do labeled
    <- match i_apply_to (p_imbalance p) with
       | ApplyLabeled => do q <- apply_imbalance R ord decay s_imb labeled0 lab (p_imbalance p); Ok (fst q)
       | ApplyTrain => Ok labeled0
       end;
  do lm <- idx_to_mask (lenZ y) labeled;
  do um <- and_not tr lm;
  let m := {| m_train := tr; m_val := va; m_test := te; m_labeled := lm; m_unlabeled := um |} in
  do st <- build_graph_stats m y labeled;
  do _ <- validate_graph (lenZ y) m;
  Ok (m, st).
