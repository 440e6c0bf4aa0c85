(* Model of the manifest kept beside a cached data set (src/modssc/data_loader/manifest.py).
   json.dumps and json.loads are parameters over an arbitrary type of texts; values are the JSON-like values of PyValue.v; the file is its text. *)
From Coq Require Import String.
From Verif Require Import Prelude PyValue.
From Verif Require DatasetCacheModel.
Local Open Scope string_scope.
Local Open Scope list_scope.
Local Notation length := List.length.

(* what dataset_summary sees of an array: the name of its type, its shape and dtype (None: no such attribute; Err: reading it fails) *)
Record arr := { a_type : string; a_shape : option (result (list Z)); a_dtype : option (result string) }.
Record part := { p_X : option arr; p_y : option arr; p_edges : option arr; p_masks : option (list (string * option arr)) }.
Record data := { d_train : part; d_test : option part; d_meta : pyval; d_meta_type : string }.
(* shape_dtype (manifest.py lines 25-35) *)
Definition shape_dtype (x : option arr) : pyval :=
  match x with
  | None => PDict [("type", PStr "None")]
  | Some a => PDict (("type", PStr (a_type a))
                     :: (match a_shape a with Some (Ok s) => [("shape", PList (map PInt s))] | _ => [] end)
                     ++ (match a_dtype a with Some (Ok t) => [("dtype", PStr t)] | _ => [] end))
  end.
(* split_summary (manifest.py lines 37-45) *)
Definition split_summary (p : part) : pyval :=
  PDict [("X", shape_dtype (p_X p)); ("y", shape_dtype (p_y p));
         ("edges", match p_edges p with None => PNone | x => shape_dtype x end);
         ("masks", match p_masks p with None => PNone | Some l => PDict (map (fun kv => (fst kv, shape_dtype (snd kv))) l) end)].
(* dataset_summary (manifest.py lines 24-50) *)
Definition summary (d : data) : pydict := [("train", split_summary (d_train d)); ("test", match d_test d with None => PNone | Some p => split_summary p end)].

(* Manifest (manifest.py lines 53-61); from_json puts any value in the last four fields *)
Record manifest := { m_schema : Z; m_fingerprint : string; m_created : string; m_identity : pyval; m_dataset : pyval; m_meta : pyval; m_environment : pyval }.
(* dict(x) of a mapping; the sequences of pairs that dict() also takes are not modelled *)
Definition as_dict (v : pyval) : result pyval := match v with PDict _ => Ok v | _ => Err TypeError end.
(* to_dict (manifest.py lines 63-72) *)
Definition to_dict (m : manifest) : result pydict :=
  do i <- as_dict (m_identity m); do d <- as_dict (m_dataset m); do t <- as_dict (m_meta m); do e <- as_dict (m_environment m);
  Ok [("schema_version", PInt (m_schema m)); ("fingerprint", PStr (m_fingerprint m)); ("created_at", PStr (m_created m)); ("identity", i); ("dataset", d); ("meta", t); ("environment", e)].
(* obj[k] *)
Definition need (d : pydict) (k : string) : result pyval := match lookup d k with Some v => Ok v | None => Err KeyError end.
(* from_json (manifest.py lines 77-88) after json.loads *)
Definition of_value (o : Oracle) (v : pyval) : result manifest :=
  match v with
  | PDict d =>
    do s <- need d "schema_version"; do s <- py_int o s;
    do f <- need d "fingerprint"; do c <- need d "created_at"; do i <- need d "identity"; do t <- need d "dataset";
    Ok {| m_schema := s; m_fingerprint := py_str o f; m_created := py_str o c; m_identity := i; m_dataset := t;
          m_meta := get_or d "meta" (PDict []); m_environment := get_or d "environment" (PDict []) |}
  | _ => Err TypeError
  end.
(* build_manifest (manifest.py lines 91-112) *)
Definition build (schema : Z) (fingerprint now python : string) (identity : pydict) (d : data) : manifest :=
  {| m_schema := schema; m_fingerprint := fingerprint; m_created := now; m_identity := PDict identity; m_dataset := PDict (summary d);
     m_meta := match d_meta d with PDict _ => DatasetCacheModel.to_jsonable (d_meta d) | _ => PDict [("__type__", PStr (d_meta_type d))] end;
     m_environment := PDict [("python", PStr python)] |}.
Section Files.
Variable T : Type.
Variable dumps : pydict -> T.
Variable loads : T -> result pyval.
(* write_manifest (manifest.py lines 115-117) and read_manifest (lines 119-120): the text of the file *)
Definition write (m : manifest) : result T := do d <- to_dict m; Ok (dumps d).
Definition read (o : Oracle) (t : T) : result manifest := do v <- loads t; of_value o v.
End Files.
