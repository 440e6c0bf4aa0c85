(* Model of src/modssc/sampling/plan.py: plans as dictionaries. *)
From Coq Require Import String SpecFloat.
From Verif Require Import Prelude FloatModel PyValue SamplingModel SampleServiceModel.
Local Open Scope list_scope.
Local Open Scope string_scope.

Definition f64_0_1 : f64 := S754_finite false 7205759403792794 (-56).
Definition f64_0_2 : f64 := S754_finite false 7205759403792794 (-55).

(* plan.py:222-229.  Unlike SampleServiceModel.plan this record keeps LabelingSpec.per_class (read by
   no other code) and the two imbalance fields that from_dict stores without conversion. *)
Record plan_cfg := {
  c_split : split_spec;
  c_mode : label_mode;
  c_per_class : bool;
  c_lmin : Z;
  c_strategy : strategy;
  c_fixed : option (list Z);
  c_ikind : imb_kind;
  c_apply_to : imb_target;
  c_imax : pyval;
  c_alpha : pyval;
  c_imin : Z;
  c_policy : policy
}.

(* ------------------------------------------------------------------------------- as_dict *)

(* plan.py:44-51, 80-88 *)
Definition split_dict (s : split_spec) : pyval :=
  match s with
  | Holdout tf vf st sh =>
      PDict [("kind", PStr "holdout"); ("test_fraction", PFloat tf); ("val_fraction", PFloat vf);
             ("stratify", PBool st); ("shuffle", PBool sh)]
  | KFold k fold st sh vf =>
      PDict [("kind", PStr "kfold"); ("k", PInt k); ("fold", PInt fold); ("stratify", PBool st);
             ("shuffle", PBool sh); ("val_fraction", PFloat vf)]
  end.

Definition mode_name (m : label_mode) : string :=
  match m with MFraction _ => "fraction" | MCount _ => "count" | MPerClass _ => "per_class" end.
Definition mode_value (m : label_mode) : pyval :=
  match m with MFraction f => PFloat f | MCount v => PInt v | MPerClass v => PInt v end.
Definition strategy_name (s : strategy) : string :=
  match s with Proportional => "proportional" | Balanced => "balanced" end.
Definition kind_name (k : imb_kind) : string :=
  match k with INone => "none" | ISubsample => "subsample_max_per_class" | ILongTail => "long_tail" end.
Definition target_name (t : imb_target) : string :=
  match t with ApplyTrain => "train" | ApplyLabeled => "labeled" end.

(* plan.py:128-138 *)
Definition labeling_dict (c : plan_cfg) : pyval :=
  PDict [("mode", PStr (mode_name (c_mode c))); ("value", mode_value (c_mode c));
         ("per_class", PBool (c_per_class c)); ("min_per_class", PInt (c_lmin c));
         ("strategy", PStr (strategy_name (c_strategy c)));
         ("fixed_indices", match c_fixed c with
                           | None => PNone | Some l => PList (map PInt l) end)].

(* None if x is None else conv(x) *)
Definition opt_conv {A} (conv : pyval -> result A) (inj : A -> pyval) (v : pyval) : result pyval :=
  match v with PNone => Ok PNone | _ => do x <- conv v; Ok (inj x) end.

(* plan.py:191-198 *)
Definition imbalance_dict (o : Oracle) (c : plan_cfg) : result pyval :=
  do mx <- opt_conv (py_int o) PInt (c_imax c);
  do al <- opt_conv (py_float o) PFloat (c_alpha c);
  Ok (PDict [("kind", PStr (kind_name (c_ikind c))); ("apply_to", PStr (target_name (c_apply_to c)));
             ("max_per_class", mx); ("alpha", al); ("min_per_class", PInt (c_imin c))]).

(* plan.py:231-241 *)
Definition policy_dict (p : policy) : pyval :=
  PDict [("respect_official_test", PBool (respect_official_test p));
         ("use_official_graph_masks", PBool (use_official_graph_masks p));
         ("allow_override_official", PBool (allow_override_official p))].

Definition as_dict (o : Oracle) (c : plan_cfg) : result pydict :=
  do im <- imbalance_dict o c;
  Ok [("split", split_dict (c_split c)); ("labeling", labeling_dict c); ("imbalance", im);
      ("policy", policy_dict (c_policy c))].

(* ----------------------------------------------------------------------------- from_dict *)

(* plan.py:275-279 *)
Definition assert_known (d : pydict) (allowed : list string) : result unit :=
  if forallb (fun k => memS k allowed) (keys d) then Ok tt else Err ValueError.

(* plan.py:267-272 *)
Definition ensure_mapping (v : pyval) : result pydict :=
  match v with PNone => Ok [] | PDict d => Ok d | _ => Err ValueError end.

Definition plan_keys := ["split"; "labeling"; "imbalance"; "policy"].
Definition holdout_keys := ["kind"; "test_fraction"; "val_fraction"; "stratify"; "shuffle"].
Definition kfold_keys := ["kind"; "k"; "fold"; "stratify"; "shuffle"; "val_fraction"].
Definition labeling_keys :=
  ["mode"; "value"; "per_class"; "min_per_class"; "strategy"; "fixed_indices"].
Definition imbalance_keys := ["kind"; "apply_to"; "max_per_class"; "alpha"; "min_per_class"].
Definition policy_keys :=
  ["respect_official_test"; "use_official_graph_masks"; "allow_override_official"].

(* plan.py:53-67 *)
Definition holdout_from (o : Oracle) (d : pydict) : result split_spec :=
  do _ <- assert_known d holdout_keys;
  if negb (String.eqb (py_str o (get_or d "kind" (PStr "holdout"))) "holdout") then Err ValueError
  else
    do tf <- py_float o (get_or d "test_fraction" (PFloat f64_0_2));
    do vf <- py_float o (get_or d "val_fraction" (PFloat f64_0_1));
    Ok (Holdout tf vf (py_bool (get_or d "stratify" (PBool true)))
          (py_bool (get_or d "shuffle" (PBool true)))).

(* plan.py:90-107 *)
Definition kfold_from (o : Oracle) (d : pydict) : result split_spec :=
  do _ <- assert_known d kfold_keys;
  if negb (String.eqb (py_str o (get_or d "kind" (PStr "kfold"))) "kfold") then Err ValueError
  else
    do k <- py_int o (get_or d "k" (PInt 5));
    do fold <- py_int o (get_or d "fold" (PInt 0));
    do vf <- py_float o (get_or d "val_fraction" (PFloat f64_zero));
    Ok (KFold k fold (py_bool (get_or d "stratify" (PBool true)))
          (py_bool (get_or d "shuffle" (PBool true))) vf).

(* plan.py:248-254 *)
Definition split_from (o : Oracle) (d : pydict) : result split_spec :=
  let kind := py_str o (get_or d "kind" (PStr "holdout")) in
  if String.eqb kind "kfold" then kfold_from o d
  else if String.eqb kind "holdout" then holdout_from o d
  else Err ValueError.

(* plan.py:140-168, the five fields besides min_per_class are returned in order *)
Definition labeling_from (o : Oracle) (d : pydict)
  : result (label_mode * bool * Z * strategy * option (list Z)) :=
  do _ <- assert_known d labeling_keys;
  let mode := py_str o (get_or d "mode" (PStr "fraction")) in
  let value := get_or d "value" (PFloat f64_0_1) in
  do m <- (if String.eqb mode "fraction" then do f <- py_float o value; Ok (MFraction f)
           else if String.eqb mode "count" then do v <- py_int o value; Ok (MCount v)
           else if String.eqb mode "per_class" then do v <- py_int o value; Ok (MPerClass v)
           else Err ValueError);
  do fixed <- match get_or d "fixed_indices" PNone with
              | PNone => Ok None
              | PList l => do zs <- py_ints o l; Ok (Some zs)
              | _ => Err ValueError
              end;
  let st := py_str o (get_or d "strategy" (PStr "proportional")) in
  do s <- (if String.eqb st "proportional" then Ok Proportional
           else if String.eqb st "balanced" then Ok Balanced else Err ValueError);
  do mn <- py_int o (get_or d "min_per_class" (PInt 1));
  Ok (m, py_bool (get_or d "per_class" (PBool false)), mn, s, fixed).

(* plan.py:200-219 *)
Definition imbalance_from (o : Oracle) (d : pydict)
  : result (imb_kind * imb_target * pyval * pyval * Z) :=
  do _ <- assert_known d imbalance_keys;
  let kind := py_str o (get_or d "kind" (PStr "none")) in
  do k <- (if String.eqb kind "none" then Ok INone
           else if String.eqb kind "subsample_max_per_class" then Ok ISubsample
           else if String.eqb kind "long_tail" then Ok ILongTail else Err ValueError);
  let ap := py_str o (get_or d "apply_to" (PStr "train")) in
  do t <- (if String.eqb ap "train" then Ok ApplyTrain
           else if String.eqb ap "labeled" then Ok ApplyLabeled else Err ValueError);
  do mn <- py_int o (get_or d "min_per_class" (PInt 1));
  Ok (k, t, get_or d "max_per_class" PNone, get_or d "alpha" PNone, mn).

(* plan.py:22-33 *)
Definition policy_from (d : pydict) : result policy :=
  do _ <- assert_known d policy_keys;
  Ok {| respect_official_test := py_bool (get_or d "respect_official_test" (PBool true));
        use_official_graph_masks := py_bool (get_or d "use_official_graph_masks" (PBool true));
        allow_override_official := py_bool (get_or d "allow_override_official" (PBool false)) |}.

(* plan.py:243-264 *)
Definition from_dict (o : Oracle) (d : pydict) : result plan_cfg :=
  do _ <- assert_known d plan_keys;
  do so <- ensure_mapping (get_or d "split" (PDict []));
  do sp <- split_from o so;
  do lo <- ensure_mapping (get_or d "labeling" (PDict []));
  do ' (m, pc, lmn, st, fx) <- labeling_from o lo;
  do io <- ensure_mapping (get_or d "imbalance" (PDict []));
  do ' (ik, it, mx, al, imn) <- imbalance_from o io;
  do po <- ensure_mapping (get_or d "policy" (PDict []));
  do pol <- policy_from po;
  Ok {| c_split := sp; c_mode := m; c_per_class := pc; c_lmin := lmn; c_strategy := st;
        c_fixed := fx; c_ikind := ik; c_apply_to := it; c_imax := mx; c_alpha := al; c_imin := imn;
        c_policy := pol |}.
