(* Model of src/modssc/graph/featurization/api.py (graph_to_views), of ViewsCache in src/modssc/graph/cache.py and of
   fingerprint_array in src/modssc/graph/fingerprint.py with the cache key of build_graph
   (src/modssc/graph/construction/services/service.py).  sha256 of a payload is a parameter; the computation of the views and of
   the graph are parameters as well (they are modelled in GvModel.v, GraphOpsModel.v and GraphCacheModel.v). *)
From Coq Require Import String Ascii QArith.
From Verif Require Import Prelude.
Local Open Scope string_scope.
Local Open Scope Z_scope.
Local Open Scope list_scope.
Local Notation length := List.length.

(* graph.meta.get("fingerprint", ""): no such entry, an entry that is None, or a string (featurization/api.py line 42) *)
Inductive fp_entry := NoFp | NoneFp | Fp (s : string).
(* GraphArtifact (src/modssc/graph/artifacts.py lines 19-34): nodes, edges, weights and the fingerprint in meta *)
Record graph := { g_nodes : nat; g_edges : list (Z * Z); g_weights : option (list Q); g_fp : fp_entry }.
(* str(...) of the entry (featurization/api.py line 42) *)
Definition str_fp (f : fp_entry) : string := match f with NoFp => "" | NoneFp => "None" | Fp s => s end.

(* a file: not there, cut short by a crash, or whole *)
Inductive file (A : Type) := Absent | Torn | Whole (a : A).
Arguments Absent {A}. Arguments Torn {A}. Arguments Whole {A} a.

Section Views.
Variables X Y M Spec : Type.
Variable payload_fp : nat * list (Z * Z) -> string.      (* fingerprint_dict of the fallback payload (api.py lines 44-51) *)
Variable views_fp : string * Spec * Z -> string.         (* _views_fingerprint (featurization/api.py lines 22-28) *)
Variable valid_spec : Spec -> bool.                      (* validate_featurizer_spec *)
(* the loop over spec.views and the validation of its matrices (featurization/api.py lines 73-113): a function of the graph,
   X, the spec and the seed *)
Variable compute : nat * list (Z * Z) * option (list Q) -> X -> Spec -> Z -> result (list (string * M)).

(* NodeDataset: graph, X, and y with the masks (src/modssc/graph/artifacts.py lines 64-72) *)
Record nodes := { n_graph : graph; n_x : X; n_y : Y }.
Record meta := { mt_fp : string; mt_graph : string; mt_spec : Spec; mt_seed : Z }.
Record views := { v_views : list (string * M); v_y : Y; v_meta : meta }.
(* an entry of the views cache: views.npz and manifest.json (graph/cache.py lines 283-342) *)
Record entry := { e_npz : file (list (string * M)); e_man : option meta }.
Definition nothing : entry := {| e_npz := Absent; e_man := None |}.
Definition store := string -> entry.
Definition put (s : store) (k : string) (e : entry) : store := fun k' => if String.eqb k k' then e else s k'.

(* graph_fp (featurization/api.py lines 42-52) *)
Definition graph_fp (g : graph) : string :=
  let s := str_fp (g_fp g) in
  if String.eqb s "" then payload_fp (g_nodes g, firstn 1000 (g_edges g)) else s.

(* ViewsCache.save as steps that a crash can separate (graph/cache.py lines 290-314): the files there are removed in the
   order the directory lists them when overwriting, views.npz is written in place, the manifest is replaced at once *)
Definition save_steps (overwrite npz_first : bool) (v : list (string * M)) (m : meta) : list (entry -> entry) :=
  let drop_npz := fun e => {| e_npz := Absent; e_man := e_man e |} in
  let drop_man := fun e => {| e_npz := e_npz e; e_man := None |} in
  (if overwrite then (if npz_first then [drop_npz; drop_man] else [drop_man; drop_npz]) else []) ++
  [fun e => {| e_npz := Torn; e_man := e_man e |}; fun e => {| e_npz := Whole v; e_man := e_man e |}; fun e => {| e_npz := e_npz e; e_man := Some m |}].
Definition run_steps (fs : list (entry -> entry)) (e : entry) : entry := fold_left (fun e f => f e) fs e.
(* exists (graph/cache.py line 95) *)
Definition entry_exists (e : entry) : bool := match e_man e with Some _ => true | None => false end.
(* ViewsCache.load (graph/cache.py lines 316-342); a torn npz cannot be opened *)
Definition load_entry (e : entry) (y : Y) : result views :=
  match e_man e with
  | None => Err CacheError
  | Some m => match e_npz e with Absent => Err CacheError | Torn => Err ValueError | Whole v => Ok {| v_views := v; v_y := y; v_meta := m |} end
  end.

Record call := { c_data : nodes; c_spec : Spec; c_seed : Z; c_cache : bool; c_npz_first : bool }.
Definition call_key (c : call) : string := views_fp (graph_fp (n_graph (c_data c)), c_spec c, c_seed c).
Definition call_meta (c : call) : meta := {| mt_fp := call_key c; mt_graph := graph_fp (n_graph (c_data c)); mt_spec := c_spec c; mt_seed := c_seed c |}.
Definition call_compute (c : call) : result (list (string * M)) :=
  let g := n_graph (c_data c) in compute (g_nodes g, g_edges g, g_weights g) (n_x (c_data c)) (c_spec c) (c_seed c).
(* graph_to_views (featurization/api.py lines 31-142), c_cache being cache_enabled.  [killed] is the number of steps of the
   save that were done when the process was killed, if it was. *)
Definition graph_to_views (s : store) (c : call) (killed : option nat) : store * result views :=
  if negb (valid_spec (c_spec c)) then (s, Err ValueError) else
  let k := call_key c in
  if c_cache c && entry_exists (s k) then (s, load_entry (s k) (n_y (c_data c))) else
  match call_compute c with
  | Err e => (s, Err e)
  | Ok v =>
    let out := {| v_views := v; v_y := n_y (c_data c); v_meta := call_meta c |} in
    if c_cache c then
      let fs := save_steps true (c_npz_first c) v (call_meta c) in
      let fs' := match killed with Some n => firstn n fs | None => fs end in
      (put s k (run_steps fs' (s k)), Ok out)
    else (s, Ok out)
  end.
(* a history of calls sharing one cache directory; the answers of the calls that were not killed *)
Fixpoint history (s : store) (cs : list (call * option nat)) : store * list (call * result views) :=
  match cs with
  | [] => (s, [])
  | (c, killed) :: r =>
    let '(s', res) := graph_to_views s c killed in
    let '(s'', l) := history s' r in
    (s'', match killed with None => (c, res) :: l | Some _ => l end)
  end.
End Views.
Arguments graph_fp payload_fp g : assert.

(* ----- fingerprint_array and build_graph ----- *)
(* np.asarray(X), a matrix: str(shape), str(dtype) and the bytes of its rows (graph/fingerprint.py lines 84-87) *)
Record dense := { a_shape : string; a_dtype : string; a_rows : list (list ascii) }.
Definition text (s : string) : list ascii := list_ascii_of_string s.
(* the bytes that are hashed (graph/fingerprint.py lines 84-99).  The view of a matrix as bytes is a matrix still, so that
   raw[:max_bytes] and raw[-max_bytes:] are rows, while raw.size counts bytes.  The branch for sparse matrices is left out. *)
Definition digest_bytes (max_bytes : nat) (a : dense) : list ascii :=
  let m := text "shape=" ++ text (a_shape a) ++ text ";dtype=" ++ text (a_dtype a) ++ text ";" in
  let rows := a_rows a in
  if Nat.leb (length (concat rows)) max_bytes then m ++ concat rows
  else m ++ concat (firstn max_bytes rows) ++ concat (if Nat.eqb max_bytes 0 then rows else skipn (length rows - max_bytes) rows).
Section Build.
Variables Spec G : Type.
Variable sha : list ascii -> string.
Variable max_bytes : nat.
Variable graph_key : string * option string * Spec * Z -> string.     (* _graph_fingerprint (services/service.py lines 31-44) *)
Variable build : dense -> Spec -> Z -> result G.                      (* the uncached construction (services/service.py lines 139-191) *)
Definition fingerprint_array (a : dense) : string := sha (digest_bytes max_bytes a).
Record request := { r_x : dense; r_spec : Spec; r_seed : Z; r_ds : option string; r_pre : option string }.
(* dataset_fingerprint or fingerprint_array(X_arr) (services/service.py line 95) *)
Definition ds_fp (r : request) : string := match r_ds r with Some s => if String.eqb s "" then fingerprint_array (r_x r) else s | None => fingerprint_array (r_x r) end.
Definition request_key (r : request) : string := graph_key (ds_fp r, r_pre r, r_spec r, r_seed r).
(* build_graph with cache=True (services/service.py lines 95-212); that entries are saved whole and load back is C26, C27 and
   C51, here the cache is a map from keys to graphs *)
Definition build_graph (s : list (string * G)) (r : request) : list (string * G) * result G :=
  match find (fun kv => String.eqb (request_key r) (fst kv)) s with
  | Some kv => (s, Ok (snd kv))
  | None => match build (r_x r) (r_spec r) (r_seed r) with Ok g => ((request_key r, g) :: s, Ok g) | Err e => (s, Err e) end
  end.
Fixpoint builds (s : list (string * G)) (rs : list request) : list (result G) :=
  match rs with [] => [] | r :: l => let '(s', a) := build_graph s r in a :: builds s' l end.
(* build of the benchmark (bench/orchestrators/graph.py lines 48-95, called by bench/main.py lines 778-788): the training rows,
   with the test rows below them when the sampling refers to the test split; the dataset fingerprint is the one in the meta of
   the dataset.  [stack] is np.concatenate. *)
Definition bench_request (stack : dense -> dense -> dense) (train test : dense) (ds pre : string) (spec : Spec) (seed : Z) (include_test : bool) : request :=
  {| r_x := if include_test then stack train test else train; r_spec := spec; r_seed := seed; r_ds := Some ds; r_pre := Some pre |}.
End Build.
