(* Vocabulary for the specifications of graphs. *)
From Coq Require Import String SpecFloat QArith.
From Verif Require Import Prelude FloatModel PyValue SamplingSpec GsModel.
Local Open Scope string_scope.
Local Open Scope Z_scope.
Local Open Scope list_scope.

(* a float above 0; what a check "x <= 0: refuse" lets pass *)
Definition above_zero (f : f64) : Prop := f = S754_infinity false \/ exists q, f64_value f = Some q /\ (0 < q)%Q.
Definition passes_zero (f : f64) : Prop := above_zero f \/ f = S754_nan.
(* a float between 0 and 1, in the order of floats *)
Definition unit_float (f : f64) : Prop := f64_leb f64_zero f = true /\ f64_leb f f64_one = true.
Definition positive_int (o : Oracle) (v : pyval) : Prop := exists z, py_int o v = Ok z /\ 0 < z.
Definition positive_float (o : Oracle) (v : pyval) : Prop := exists f, py_float o v = Ok f /\ passes_zero f.
(* sigma as the code reads it: a false value (None, 0, 0.0, "", ...) counts as 0.0 *)
Definition sigma_reads (o : Oracle) (v : pyval) (f : f64) : Prop := (py_bool v = true /\ py_float o v = Ok f) \/ (py_bool v = false /\ f = f64_zero).

(* what validate() requires *)
Definition valid_weights (o : Oracle) (metric : string) (w : weights_spec) : Prop :=
  ws_kind w = "binary" \/ (ws_kind w = "heat" /\ exists s, sigma_reads o (ws_sigma w) s /\ passes_zero s) \/ (ws_kind w = "cosine" /\ metric = "cosine").
Definition valid_scheme (o : Oracle) (s : builder_spec) : Prop :=
  (bs_scheme s = "knn" /\ positive_int o (bs_k s)) \/
  (bs_scheme s = "epsilon" /\ positive_float o (bs_radius s) /\ bs_backend s <> "faiss") \/
  (bs_scheme s = "anchor" /\ positive_int o (bs_k s) /\ 0 < bs_anchors_k s /\ (bs_n_anchors s = PNone \/ positive_int o (bs_n_anchors s)) /\
   0 < bs_candidate_limit s /\ In (bs_anchors_method s) ["random"; "kmeans"]).
Definition valid_builder (o : Oracle) (s : builder_spec) : Prop :=
  In (bs_metric s) ["cosine"; "euclidean"] /\ valid_scheme o s /\ In (bs_symmetrize s) ["none"; "or"; "mutual"] /\ In (bs_normalize s) ["none"; "rw"; "sym"] /\
  In (bs_backend s) ["auto"; "numpy"; "sklearn"; "faiss"] /\ 0 < bs_chunk_size s /\ 0 < bs_faiss_hnsw_m s /\ 0 < bs_faiss_ef_search s /\ 0 < bs_faiss_ef_construction s /\
  valid_weights o (bs_metric s) (bs_weights s).
Definition valid_featurizer (s : featurizer_spec) : Prop :=
  0 <= fs_steps s /\ unit_float (fs_alpha s) /\ fs_views s <> [] /\ (forall v, In v (fs_views s) -> In v [PStr "attr"; PStr "diffusion"; PStr "struct"]) /\
  In (fs_method s) ["deepwalk"; "node2vec"] /\ 0 < fs_dim s /\ 1 < fs_walk_length s /\ 0 < fs_num_walks s /\ 0 < fs_window s /\ passes_zero (fs_p s) /\ passes_zero (fs_q s).

(* the keys that from_dict reads *)
Definition builder_keys : list string :=
  ["scheme"; "metric"; "k"; "radius"; "symmetrize"; "weights"; "normalize"; "self_loops"; "backend"; "chunk_size"; "feature_field"; "n_anchors";
   "anchors_k"; "anchors_method"; "candidate_limit"; "faiss_exact"; "faiss_hnsw_m"; "faiss_ef_search"; "faiss_ef_construction"].
Definition featurizer_keys : list string :=
  ["views"; "diffusion_steps"; "diffusion_alpha"; "struct_method"; "struct_dim"; "walk_length"; "num_walks_per_node"; "window_size"; "p"; "q"; "cache"].
