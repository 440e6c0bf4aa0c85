(* Vocabulary for C155: what the benchmark hands to inductive methods. *)
From Coq Require Import String QArith.
From Verif Require Import Prelude BundleModel InjModel.
Local Open Scope string_scope.
Local Open Scope Z_scope.
Local Open Scope list_scope.
Local Notation length := List.length.

(* a tensor somewhere in a value *)
Inductive has_tensor : value -> Prop :=
| ht_tensor a d : has_tensor (VTensor a d)
| ht_dict l k v : In (k, v) l -> has_tensor v -> has_tensor (VDict l)
| ht_seq l v : In v l -> has_tensor v -> has_tensor (VSeq l).
(* nothing but None, other objects, and dicts and empty sequences of them *)
Inductive bare : value -> Prop :=
| b_none : bare VNone
| b_other o : bare (VOther o)
| b_dict l : (forall k v, In (k, v) l -> bare v) -> bare (VDict l)
| b_seq : bare (VSeq []).
(* an array somewhere, or a sequence with an entry that has neither array nor tensor *)
Inductive has_array : value -> Prop :=
| ha_array a : has_array (VArray a)
| ha_dict l k v : In (k, v) l -> has_array v -> has_array (VDict l)
| ha_seq l v : In v l -> has_array v -> has_array (VSeq l)
| ha_bare l v : In v l -> bare v -> has_array (VSeq l).

(* the value under a path of keys *)
Fixpoint at_path (p : list string) (v : value) : option value :=
  match p with [] => Some v | k :: r => match v with VDict l => match get l k with Some x => at_path r x | None => None end | _ => None end end.
(* dicts of None and tensors on the device, if one is given *)
Inductive torch_only (device : option string) : value -> Prop :=
| to_none : torch_only device VNone
| to_tensor a d : (forall d', device = Some d' -> d = d') -> torch_only device (VTensor a d)
| to_dict l : (forall k v, In (k, v) l -> torch_only device v) -> torch_only device (VDict l).

(* a benchmark-mode input: absent, or torch-backed if required, with features of rank at least 2 and floating if a tensor *)
Definition strictly_fine (requires_torch : bool) (v : value) : Prop :=
  v = VNone \/
  (requires_torch = true -> (exists a d, v = VTensor a d) \/ (exists l, v = VDict l) /\ has_tensor v /\ ~ has_array v) /\
  (forall a d, v = VTensor a d \/ (exists l, v = VDict l /\ at_path ["x"] v = Some (VTensor a d)) -> (2 <= length (a_shape a))%nat /\ (a_type a = F64 \/ a_type a = Floating)) /\
  (forall a, v = VArray a \/ (exists l, v = VDict l /\ at_path ["x"] v = Some (VArray a)) -> (2 <= length (a_shape a))%nat).

(* which fields of a specification receive bundles, with the offsets of their seeds *)
Inductive receives (fs : list string) : list (string * list Z) -> Prop :=
| r_one : In "model_bundle" fs -> receives fs [("model_bundle", [0])]
| r_teacher : ~ In "model_bundle" fs -> In "teacher_bundle" fs -> In "student_bundle" fs -> receives fs [("student_bundle", [0]); ("teacher_bundle", [1])]
| r_pair : ~ In "model_bundle" fs -> ~ (In "teacher_bundle" fs /\ In "student_bundle" fs) -> In "model_bundle_1" fs -> In "model_bundle_2" fs ->
    receives fs [("model_bundle_1", [0]); ("model_bundle_2", [1])]
| r_stages : ~ In "model_bundle" fs -> ~ (In "teacher_bundle" fs /\ In "student_bundle" fs) -> ~ (In "model_bundle_1" fs /\ In "model_bundle_2" fs) ->
    In "pretrain_bundle" fs -> In "finetune_bundle" fs -> receives fs [("pretrain_bundle", [0]); ("finetune_bundle", [1])]
| r_heads : ~ In "model_bundle" fs -> ~ (In "teacher_bundle" fs /\ In "student_bundle" fs) -> ~ (In "model_bundle_1" fs /\ In "model_bundle_2" fs) ->
    ~ (In "pretrain_bundle" fs /\ In "finetune_bundle" fs) -> In "shared_bundle" fs -> In "head_bundles" fs ->
    receives fs [("shared_bundle", [0]); ("head_bundles", [1; 2; 3])].
(* the number of distinct labels *)
Definition counts_distinct (y : list Z) (k : Z) : Prop := exists l, NoDup l /\ (forall z, In z l <-> In z y) /\ k = Z.of_nat (length l).
(* the number of rows of a tensor or array, or of the features of a dict *)
Definition rows (v : value) (n : nat) : Prop :=
  exists a r, a_shape a = n :: r /\ (v = VArray a \/ at_path ["x"] v = Some (VArray a) \/ exists d, v = VTensor a d \/ at_path ["x"] v = Some (VTensor a d)).
