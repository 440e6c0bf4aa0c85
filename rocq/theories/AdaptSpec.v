(* What C148 says: datasets the two adapters take. *)
From Coq Require Import String.
From Verif Require Import Prelude AdaptModel.
Local Open Scope string_scope.
Local Open Scope Z_scope.
Local Open Scope list_scope.
Local Notation length := List.length.

(* ----- numpy ----- *)
Definition array (v : val) (s : list nat) : Prop := exists i dt, v = Arr i s dt.
(* rows and features: the first two sizes *)
Definition sized (s : list nat) (n f : nat) : Prop := exists r, s = n :: f :: r.
(* labels: a vector or a table with one row per example *)
Definition labelling (s : list nat) (n : nat) : Prop := s = [n] \/ exists c, s = [n; c].
Definition string_keys (items : list (key * val)) : Prop := forall k v, In (k, v) items -> exists s, k = KStr s.
Definition numpy_ready (d : data) : Prop :=
  exists sl sy n f, array (d_xl d) sl /\ sized sl n f /\ array (d_yl d) sy /\ labelling sy n /\
    (forall v, In v [d_xu d; d_xw d; d_xs d] -> v = Nothing \/ exists s m, array v s /\ sized s m f) /\
    (forall sw ss, array (d_xw d) sw -> array (d_xs d) ss -> hd_error sw = hd_error ss) /\
    (d_views d = NoMap \/ exists items, d_views d = Map items /\ string_keys items /\ forall k v, In (k, v) items -> exists s, array v s) /\
    (d_meta d = NoMap \/ exists items, d_meta d = Map items).
(* a field np.asarray cannot turn into an array *)
Definition hopeless (v : val) : Prop := exists i, v = Other i None.

(* ----- torch ----- *)
Definition tensor (v : val) (s : list nat) (dv : device) : Prop := exists i dt, v = Ten i s dt dv.
Definition tensor_like (v : val) : Prop := (exists s dv, tensor v s dv) \/ exists items k w s dv, v = Dict items /\ In (k, w) items /\ tensor w s dv.
(* d[s]: keys of a dict are distinct, the first entry is the only one *)
Definition binds (items : list (key * val)) (s : string) (v : val) : Prop :=
  exists before after, items = before ++ (KStr s, v) :: after /\ forall w, ~ In (KStr s, w) before.
Definition unbound (items : list (key * val)) (s : string) : Prop := forall w, ~ In (KStr s, w) items.
(* the features of a value: a tensor itself, or what a dict holds under x *)
Inductive featured : val -> list nat -> Prop :=
| featured_tensor i s dt dv : featured (Ten i s dt dv) s
| featured_dict items x s : binds items "x" x -> (array x s \/ exists dv, tensor x s dv) -> featured (Dict items) s.
(* a dict without x: the adapter does not look into it *)
Definition opaque (v : val) : Prop := exists items, v = Dict items /\ unbound items "x".
(* what is found in a value when dicts are entered *)
Inductive inside : val -> val -> Prop :=
| inside_self v : (forall items, v <> Dict items) -> inside v v
| inside_dict u items k v : In (k, v) items -> inside u v -> inside u (Dict items).
Definition fields (d : data) (v : val) : Prop := In v [d_xl d; d_yl d; d_xu d; d_xw d; d_xs d] \/ exists items k, d_views d = Map items /\ In (k, v) items.
Definition somewhere (d : data) (u : val) : Prop := exists v, fields d v /\ inside u v.
Definition together (d : data) : Prop := forall u u' s s' dv dv', somewhere d u -> somewhere d u' -> tensor u s dv -> tensor u' s' dv' -> dv = dv'.
Definition all_on (d : data) (ex : device) : Prop := forall u, somewhere d u -> u = Nothing \/ exists s, tensor u s ex.
Definition torch_ready (available : string -> bool) (d : data) (dev : option string) (same : bool) : Prop :=
  exists sl sy n f dy, tensor_like (d_xl d) /\ featured (d_xl d) sl /\ sized sl n f /\ tensor (d_yl d) sy dy /\ labelling sy n /\
    (forall v, In v [d_xu d; d_xw d; d_xs d] -> v = Nothing \/ (tensor_like v /\ (opaque v \/ exists s m, featured v s /\ sized s m f))) /\
    (d_xw d <> Nothing -> d_xs d <> Nothing -> exists sw ss m, featured (d_xw d) sw /\ featured (d_xs d) ss /\ hd_error sw = Some m /\ hd_error ss = Some m) /\
    (d_views d = NoMap \/ exists items, d_views d = Map items /\ string_keys items /\ forall k v, In (k, v) items -> tensor_like v) /\
    (same = true -> together d) /\
    (forall r, dev = Some r -> r <> "auto" ->
       exists ex, (r = "cpu" /\ ex = Cpu \/ (r = "cuda" \/ r = "mps") /\ available r = true /\ ex = Acc r None) /\ all_on d ex).
(* where torch keeps tensors: the CPU, or an accelerator with its number *)
Definition placed (dv : device) : Prop := match dv with Cpu => True | Acc _ i => i <> None end.
Definition index_key (k : key) : Prop := k = KStr "idx_u" \/ k = KStr "unlabeled_idx" \/ k = KStr "unlabeled_indices".
(* the value of an index entry after it was moved: int64, on the device, in the same shape *)
Definition long_on (dv : device) (v v' : val) : Prop :=
  exists i s, v' = Ten i s Int64 dv /\ (forall j s0 dt dv0, v = Ten j s0 dt dv0 -> s = s0) /\ (forall j s0, v = Ten j s0 Int64 dv -> i = j).
(* where the index entries go: the device of the first of X_u, X_u_w, X_u_s and X_l that has features *)
Definition leads (np_device : option device) (d : data) (dv : device) : Prop :=
  exists before v after, [d_xu d; d_xw d; d_xs d; d_xl d] = before ++ v :: after /\ (forall w, In w before -> w = Nothing \/ opaque w) /\
    ((exists s, tensor v s dv) \/ exists items x s, v = Dict items /\ binds items "x" x /\ (tensor x s dv \/ (array x s /\ np_device = Some dv))).
