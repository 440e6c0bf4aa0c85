(* Model of src/modssc/inductive/validation.py, src/modssc/inductive/adapters/numpy.py and
   src/modssc/inductive/adapters/torch.py.  Arrays and tensors are an identity with a shape, a kind of numbers and, for tensors,
   a device; their contents play no part in the checks. *)
From Coq Require Import String.
From Verif Require Import Prelude.
Local Open Scope string_scope.
Local Open Scope Z_scope.
Local Open Scope list_scope.
Local Notation length := List.length.

(* torch.device: the CPU, or an accelerator with an index that may be left open (torch_common.py lines 21-29) *)
Inductive device := Cpu | Acc (kind : string) (index : option nat).
(* the numbers of an array: int64, another integer type, anything else *)
Inductive numbers := Int64 | OtherInt | NotInt.
(* keys of a mapping: strings or anything else *)
Inductive key := KStr (s : string) | KOther (n : nat).
(* the values a dataset may hold: None, numpy arrays, torch tensors, dicts, anything else with the shape np.asarray gives it
   (no shape: np.asarray raises).  Objects of other types have no attributes ndim, shape and device here. *)
Inductive val :=
| Nothing
| Arr (id : nat) (shape : list nat) (dt : numbers)
| Ten (id : nat) (shape : list nat) (dt : numbers) (dev : device)
| Dict (items : list (key * val))
| Other (id : nat) (shape : option (list nat)).
(* a mapping argument (views, meta): absent, a mapping, or something else (validation.py lines 35-49) *)
Inductive mapping := NoMap | Map (items : list (key * val)) | NotMap (id : nat).
(* InductiveDataset (src/modssc/inductive/types.py lines 28-42) *)
Record data := { d_xl : val; d_yl : val; d_xu : val; d_xw : val; d_xs : val; d_views : mapping; d_meta : mapping }.

Definition device_eqb (a b : device) : bool :=
  match a, b with
  | Cpu, Cpu => true
  | Acc k i, Acc k' i' => String.eqb k k' && match i, i' with None, None => true | Some x, Some y => Nat.eqb x y | _, _ => false end
  | _, _ => false
  end.

(* ----- numpy ----- *)
(* the shape of to_numpy(x) (utils/numpy.py lines 8-17); a dict or None becomes an array of rank 0 *)
Definition np_shape (v : val) : result (list nat) :=
  match v with
  | Arr _ s _ | Ten _ s _ _ => Ok s
  | Nothing | Dict _ => Ok []
  | Other _ (Some s) => Ok s
  | Other _ None => Err ValueError
  end.
(* _require_2d (validation.py lines 14-21) *)
Definition require_2d (v : val) : result (list nat) :=
  do s <- np_shape v; if Nat.ltb (length s) 2 then Err InductiveValidationError else Ok s.
(* _require_y (validation.py lines 24-30) *)
Definition require_y (v : val) (n : nat) : result unit :=
  do s <- np_shape v;
  if negb (Nat.eqb (length s) 1 || Nat.eqb (length s) 2) then Err InductiveValidationError
  else if negb (Nat.eqb (nth 0 s 0%nat) n) then Err InductiveValidationError else Ok tt.
(* the checks of X_u, X_u_w and X_u_s (validation.py lines 66-79) *)
Definition require_u (v : val) (nf : nat) : result unit :=
  match v with
  | Nothing => Ok tt
  | _ => do s <- require_2d v; if Nat.eqb (nth 1 s 0%nat) nf then Ok tt else Err InductiveValidationError
  end.
(* X_u_w and X_u_s have as many rows (validation.py lines 81-85) *)
Definition same_rows (w s : val) : result unit :=
  match w, s with
  | Nothing, _ => Ok tt
  | _, Nothing => Ok tt
  | _, _ => do a <- np_shape w; do b <- np_shape s; if Nat.eqb (nth 0 a 0%nat) (nth 0 b 0%nat) then Ok tt else Err InductiveValidationError
  end.
Definition is_str (k : key) : bool := match k with KStr _ => true | _ => false end.
(* _validate_views (validation.py lines 33-40) *)
Definition validate_views (m : mapping) : result unit :=
  match m with
  | NoMap => Ok tt
  | NotMap _ => Err InductiveValidationError
  | Map items => if forallb (fun kv => is_str (fst kv)) items then Ok tt else Err InductiveValidationError
  end.
(* _validate_meta (validation.py lines 43-47) *)
Definition validate_meta (m : mapping) : result unit := match m with NotMap _ => Err InductiveValidationError | _ => Ok tt end.
(* validate_inductive_dataset (validation.py lines 50-88); no dataset at all is None *)
Definition validate (d : option data) : result unit :=
  match d with
  | None => Err InductiveValidationError
  | Some d =>
    do sl <- require_2d (d_xl d);
    do _ <- require_y (d_yl d) (nth 0 sl 0%nat);
    let nf := nth 1 sl 0%nat in
    do _ <- require_u (d_xu d) nf;
    do _ <- require_u (d_xw d) nf;
    do _ <- require_u (d_xs d) nf;
    do _ <- same_rows (d_xw d) (d_xs d);
    do _ <- validate_views (d_views d);
    validate_meta (d_meta d)
  end.
(* _require_numpy (adapters/numpy.py lines 20-26) *)
Definition require_numpy (v : val) : result val := match v with Arr _ _ _ => Ok v | _ => Err InductiveValidationError end.
Definition optionally (f : val -> result val) (v : val) : result val := match v with Nothing => Ok Nothing | _ => f v end.
(* the loop over the views (adapters/numpy.py lines 34-38, adapters/torch.py lines 41-45) *)
Fixpoint require_items (f : val -> result val) (items : list (key * val)) : result (list (key * val)) :=
  match items with
  | [] => Ok []
  | (k, v) :: r =>
    if is_str k then do v' <- f v; do r' <- require_items f r; Ok ((k, v') :: r') else Err InductiveValidationError
  end.
(* _require_numpy_views and _require_views (adapters/numpy.py lines 29-39, adapters/torch.py lines 36-46) *)
Definition require_views (f : val -> result val) (m : mapping) : result mapping :=
  match m with
  | NoMap => Ok NoMap
  | NotMap _ => Err InductiveValidationError
  | Map items => do items' <- require_items f items; Ok (Map items')
  end.
(* to_numpy_dataset (adapters/numpy.py lines 55-81) *)
Definition to_numpy_dataset (d0 : option data) : result data :=
  do _ <- validate d0;
  match d0 with
  | None => Err InductiveValidationError
  | Some d =>
    do xl <- require_numpy (d_xl d);
    do yl <- require_numpy (d_yl d);
    do xu <- optionally require_numpy (d_xu d);
    do xw <- optionally require_numpy (d_xw d);
    do xs <- optionally require_numpy (d_xs d);
    do views <- require_views require_numpy (d_views d);
    Ok {| d_xl := xl; d_yl := yl; d_xu := xu; d_xw := xw; d_xs := xs; d_views := views; d_meta := d_meta d |}
  end.

(* ----- torch ----- *)
Definition is_tensor (v : val) : bool := match v with Ten _ _ _ _ => true | _ => false end.
(* _require_tensor (adapters/torch.py lines 24-33): a tensor, or a dict with a tensor among its values *)
Definition require_tensor (v : val) : result val :=
  match v with
  | Ten _ _ _ _ => Ok v
  | Dict items => if existsb (fun kv => is_tensor (snd kv)) items then Ok v else Err InductiveValidationError
  | _ => Err InductiveValidationError
  end.
Definition key_is (s : string) (k : key) : bool := match k with KStr t => String.eqb s t | _ => false end.
(* d[s] of a dict *)
Definition lookup (s : string) (items : list (key * val)) : option val := option_map snd (find (fun kv => key_is s (fst kv)) items).
(* the attribute shape (and ndim) of arrays and tensors; other values have none *)
Definition attr_shape (v : val) : result (list nat) := match v with Arr _ s _ | Ten _ s _ _ => Ok s | _ => Err AttributeError end.
(* x["x"] of a dict that has it, else x itself (adapters/torch.py lines 138-146) *)
Definition features (v : val) : val := match v with Dict items => match lookup "x" items with Some x => x | None => v end | _ => v end.
(* a dict without x escapes _check_2d and _check_feature_dim (adapters/torch.py lines 50-54 and 69-73) *)
Definition unchecked (v : val) : bool := match v with Dict items => match lookup "x" items with Some _ => false | None => true end | _ => false end.
(* _check_2d (adapters/torch.py lines 49-58) *)
Definition check_2d (v : val) : result unit :=
  if unchecked v then Ok tt else do s <- attr_shape (features v); if Nat.ltb (length s) 2 then Err InductiveValidationError else Ok tt.
(* get_len and get_features (adapters/torch.py lines 138-146); shape[i] of a shorter shape is an IndexError *)
Definition size_of (i : nat) (v : val) : result nat := do s <- attr_shape (features v); match nth_error s i with Some n => Ok n | None => Err IndexError end.
(* _check_y (adapters/torch.py lines 61-65): a dict has no ndim *)
Definition check_y (y : val) (n : nat) : result unit :=
  do s <- attr_shape y;
  if negb (Nat.eqb (length s) 1 || Nat.eqb (length s) 2) then Err InductiveValidationError
  else if negb (Nat.eqb (nth 0 s 0%nat) n) then Err InductiveValidationError else Ok tt.
(* _check_2d and _check_feature_dim of X_u, X_u_w and X_u_s (adapters/torch.py lines 68-75 and 155-163) *)
Definition check_u (v : val) (nf : nat) : result unit :=
  match v with
  | Nothing => Ok tt
  | _ => do _ <- check_2d v; if unchecked v then Ok tt else do n <- size_of 1 v; if Nat.eqb n nf then Ok tt else Err InductiveValidationError
  end.
(* the rows of X_u_w and X_u_s (adapters/torch.py lines 164-165) *)
Definition check_rows (w s : val) : result unit :=
  match w, s with
  | Nothing, _ => Ok tt
  | _, Nothing => Ok tt
  | _, _ => do a <- size_of 0 w; do b <- size_of 0 s; if Nat.eqb a b then Ok tt else Err InductiveValidationError
  end.
(* the tensors check_item goes through, in its order (adapters/torch.py lines 82-99) *)
Fixpoint tensors_in (v : val) : list device :=
  match v with
  | Ten _ _ _ dv => [dv]
  | Dict items => (fix go l := match l with [] => [] | kv :: r => tensors_in (snd kv) ++ go r end) items
  | _ => []
  end.
(* _check_same_device (adapters/torch.py lines 78-102) *)
Definition check_same_device (vs : list val) : result unit :=
  match flat_map tensors_in vs with
  | [] => Ok tt
  | dv :: r => if forallb (fun dv' => device_eqb dv' dv) r then Ok tt else Err InductiveValidationError
  end.
(* _check_expected_device (adapters/torch.py lines 176-192): None is passed over, dicts are entered, anything that is not a
   tensor has no device (in numpy 2 an array has one, a string, and is refused by the comparison instead) *)
Fixpoint check_expected (ex : device) (v : val) : result unit :=
  match v with
  | Nothing => Ok tt
  | Dict items => (fix go l := match l with [] => Ok tt | kv :: r => do _ <- check_expected ex (snd kv); go r end) items
  | Ten _ _ _ dv => if device_eqb dv ex then Ok tt else Err InductiveValidationError
  | _ => Err AttributeError
  end.
Fixpoint check_all (ex : device) (vs : list val) : result unit := match vs with [] => Ok tt | v :: r => do _ <- check_expected ex v; check_all ex r end.
(* tensors and views.values() (adapters/torch.py lines 169-171) *)
Definition view_values (m : mapping) : list val := match m with Map items => map snd items | _ => [] end.
Definition held (d : data) : list val := [d_xl d; d_yl d; d_xu d; d_xw d; d_xs d] ++ view_values (d_views d).
(* resolve_device of a requested name other than auto (src/modssc/backends/torch_common.py lines 17-30): the device
   has no index; [available] tells which accelerators there are *)
Definition resolve_device (available : string -> bool) (requested : string) : result device :=
  if String.eqb requested "cpu" then Ok Cpu
  else if String.eqb requested "cuda" || String.eqb requested "mps" then if available requested then Ok (Acc requested None) else Err OptionalDependencyError
  else Err ValueError.

Section Torch.
Variable available : string -> bool.
(* the attribute device of a numpy array: none before numpy 2 *)
Variable np_device : option device.
(* the contents of a tensor as int64, and torch.as_tensor(np.asarray(v), device, int64) (adapters/torch.py lines 210-217) *)
Variable as_long : nat -> nat.
Variable as_tensor : val -> device -> result val.

(* _device_of (adapters/torch.py lines 198-203) *)
Definition device_of (v : val) : result (option device) :=
  match v with
  | Nothing => Ok None
  | Dict items =>
    match lookup "x" items with
    | Some (Ten _ _ _ dv) => Ok (Some dv)
    | Some (Arr _ _ _) => match np_device with Some dv => Ok (Some dv) | None => Err AttributeError end
    | Some _ => Err AttributeError
    | None => Ok None
    end
  | Ten _ _ _ dv => Ok (Some dv)
  | Arr _ _ _ => Ok np_device
  | Other _ _ => Ok None
  end.
(* a or b or ... (adapters/torch.py line 205) *)
Fixpoint first_device (vs : list val) : result (option device) :=
  match vs with
  | [] => Ok None
  | v :: r => do o <- device_of v; match o with Some dv => Ok (Some dv) | None => first_device r end
  end.
(* the new value of an index entry (adapters/torch.py lines 209-217) *)
Definition moved (v : val) (dv : device) : result val :=
  match v with
  | Ten i s dt dv' => if match dt with Int64 => device_eqb dv' dv | _ => false end then Ok v else Ok (Ten (as_long i) s Int64 dv)
  | _ => as_tensor v dv
  end.
Fixpoint store (s : string) (v : val) (items : list (key * val)) : list (key * val) :=
  match items with
  | [] => []
  | (k, w) :: r => if key_is s k then (k, v) :: r else (k, w) :: store s v r
  end.
(* the loop over the three keys (adapters/torch.py lines 206-217) *)
Fixpoint move_keys (keys : list string) (dv : device) (items : list (key * val)) : result (list (key * val)) :=
  match keys with
  | [] => Ok items
  | s :: r => match lookup s items with None => move_keys r dv items | Some v => do v' <- moved v dv; move_keys r dv (store s v' items) end
  end.
Definition index_keys : list string := ["idx_u"; "unlabeled_idx"; "unlabeled_indices"].
(* the meta part (adapters/torch.py lines 194-217); something that is not a mapping is kept as it is *)
Definition move_meta (d : data) : result mapping :=
  match d_meta d with
  | Map items =>
    do o <- first_device [d_xu d; d_xw d; d_xs d; d_xl d];
    match o with None => Ok (Map items) | Some dv => do items' <- move_keys index_keys dv items; Ok (Map items') end
  | m => Ok m
  end.
(* to_torch_dataset (adapters/torch.py lines 116-227); [dev] is device.device when a DeviceSpec is given *)
Definition to_torch_dataset (d0 : option data) (dev : option string) (same : bool) : result data :=
  match d0 with
  | None => Err InductiveValidationError
  | Some d =>
    do xl <- require_tensor (d_xl d);
    do yl <- require_tensor (d_yl d);
    do _ <- check_2d xl;
    do n <- size_of 0 xl;
    do _ <- check_y yl n;
    do xu <- optionally require_tensor (d_xu d);
    do xw <- optionally require_tensor (d_xw d);
    do xs <- optionally require_tensor (d_xs d);
    do nf <- size_of 1 xl;
    do _ <- check_u xu nf;
    do _ <- check_u xw nf;
    do _ <- check_u xs nf;
    do _ <- check_rows xw xs;
    do views <- require_views require_tensor (d_views d);
    let d1 := {| d_xl := xl; d_yl := yl; d_xu := xu; d_xw := xw; d_xs := xs; d_views := views; d_meta := d_meta d |} in
    do _ <- (if same then check_same_device (held d1) else Ok tt);
    do _ <- match dev with
            | Some r => if String.eqb r "auto" then Ok tt else do ex <- resolve_device available r; check_all ex (held d1)
            | None => Ok tt
            end;
    do meta <- move_meta d1;
    Ok {| d_xl := xl; d_yl := yl; d_xu := xu; d_xw := xw; d_xs := xs; d_views := views; d_meta := meta |}
  end.
End Torch.
