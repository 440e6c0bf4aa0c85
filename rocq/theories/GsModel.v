(* Model of src/modssc/graph/specs.py and src/modssc/graph/construction/ops/weights.py.  Fields that
   from_dict stores without conversion (k, radius, n_anchors, sigma, the views) are Python values. *)
From Coq Require Import String SpecFloat QArith.
From Verif Require Import Prelude FloatModel PyValue.
Local Open Scope string_scope.
Local Open Scope Z_scope.
Local Open Scope list_scope.

(* the float literals of the defaults: 0.1, 0.5, 1.0 *)
Definition f_0_1 : f64 := S754_finite false 7205759403792794 (-56).
Definition f_0_5 : f64 := S754_finite false 4503599627370496 (-53).
Definition f_1_0 : f64 := S754_finite false 4503599627370496 (-52).
Definition one_of (s : string) (l : list string) : bool := existsb (String.eqb s) l.
(* d.get(k) *)
Definition get (d : pydict) (k : string) : pyval := get_or d k PNone.

(* specs.py lines 26-41 *)
Record weights_spec := { ws_kind : string; ws_sigma : pyval }.
(* specs.py line 47 and weights.py line 40: float(self.sigma or 0.0) *)
Definition sigma_float (o : Oracle) (v : pyval) : result f64 := py_float o (if py_bool v then v else PFloat f64_zero).
(* specs.py lines 43-51 *)
Definition weights_validate (o : Oracle) (metric : string) (w : weights_spec) : result unit :=
  if negb (one_of (ws_kind w) ["binary"; "heat"; "cosine"]) then Err GraphValidationError
  else
    do _ <- (if String.eqb (ws_kind w) "heat" then do s <- sigma_float o (ws_sigma w); if f64_leb s f64_zero then Err GraphValidationError else Ok tt else Ok tt);
    if String.eqb (ws_kind w) "cosine" && negb (String.eqb metric "cosine") then Err GraphValidationError else Ok tt.
(* specs.py lines 53-54 *)
Definition weights_dict (w : weights_spec) : pydict := [("kind", PStr (ws_kind w)); ("sigma", ws_sigma w)].
(* specs.py lines 56-58 *)
Definition weights_from (o : Oracle) (d : pydict) : weights_spec := {| ws_kind := py_str o (get_or d "kind" (PStr "binary")); ws_sigma := get d "sigma" |}.

(* specs.py lines 61-107 *)
Record builder_spec := {
  bs_scheme : string; bs_metric : string; bs_k : pyval; bs_radius : pyval; bs_symmetrize : string; bs_weights : weights_spec;
  bs_normalize : string; bs_self_loops : bool; bs_backend : string; bs_chunk_size : Z; bs_feature_field : string;
  bs_n_anchors : pyval; bs_anchors_k : Z; bs_anchors_method : string; bs_candidate_limit : Z;
  bs_faiss_exact : bool; bs_faiss_hnsw_m : Z; bs_faiss_ef_search : Z; bs_faiss_ef_construction : Z }.
(* specs.py lines 76-107: GraphBuilderSpec() *)
Definition builder_default : builder_spec := {|
  bs_scheme := "knn"; bs_metric := "cosine"; bs_k := PInt 30; bs_radius := PNone; bs_symmetrize := "mutual";
  bs_weights := {| ws_kind := "heat"; ws_sigma := PFloat f_0_5 |}; bs_normalize := "rw"; bs_self_loops := true; bs_backend := "auto";
  bs_chunk_size := 512; bs_feature_field := "features.X"; bs_n_anchors := PNone; bs_anchors_k := 5; bs_anchors_method := "random";
  bs_candidate_limit := 1000; bs_faiss_exact := false; bs_faiss_hnsw_m := 32; bs_faiss_ef_search := 64; bs_faiss_ef_construction := 200 |}.
Definition reject (b : bool) : result unit := if b then Err GraphValidationError else Ok tt.
(* "k is None or int(k) <= 0", "radius is None or float(radius) <= 0", "n_anchors is not None and int(n_anchors) <= 0" *)
Definition bad_int (o : Oracle) (v : pyval) : result bool := match v with PNone => Ok true | _ => do z <- py_int o v; Ok (z <=? 0) end.
Definition bad_float (o : Oracle) (v : pyval) : result bool := match v with PNone => Ok true | _ => do f <- py_float o v; Ok (f64_leb f f64_zero) end.
Definition bad_optional (o : Oracle) (v : pyval) : result bool := match v with PNone => Ok false | _ => do z <- py_int o v; Ok (z <=? 0) end.
(* specs.py lines 113-133: the scheme *)
Definition scheme_validate (o : Oracle) (s : builder_spec) : result unit :=
  if String.eqb (bs_scheme s) "knn" then do b <- bad_int o (bs_k s); reject b
  else if String.eqb (bs_scheme s) "epsilon" then do b <- bad_float o (bs_radius s); reject b
  else if String.eqb (bs_scheme s) "anchor" then
    do b <- bad_int o (bs_k s); do _ <- reject b;
    do _ <- reject (bs_anchors_k s <=? 0);
    do b <- bad_optional o (bs_n_anchors s); do _ <- reject b;
    do _ <- reject (bs_candidate_limit s <=? 0);
    reject (negb (one_of (bs_anchors_method s) ["random"; "kmeans"]))
  else Err GraphValidationError.
(* specs.py lines 109-157 *)
Definition builder_validate (o : Oracle) (s : builder_spec) : result unit :=
  do _ <- reject (negb (one_of (bs_metric s) ["cosine"; "euclidean"]));
  do _ <- scheme_validate o s;
  do _ <- reject (negb (one_of (bs_symmetrize s) ["none"; "or"; "mutual"]));
  do _ <- reject (negb (one_of (bs_normalize s) ["none"; "rw"; "sym"]));
  do _ <- reject (negb (one_of (bs_backend s) ["auto"; "numpy"; "sklearn"; "faiss"]));
  do _ <- reject (bs_chunk_size s <=? 0);
  do _ <- reject (String.eqb (bs_backend s) "faiss" && String.eqb (bs_scheme s) "epsilon");
  do _ <- reject (bs_faiss_hnsw_m s <=? 0);
  do _ <- reject (bs_faiss_ef_search s <=? 0);
  do _ <- reject (bs_faiss_ef_construction s <=? 0);
  weights_validate o (bs_metric s) (bs_weights s).
(* specs.py lines 159-180 *)
Definition builder_dict (s : builder_spec) : pydict :=
  [("scheme", PStr (bs_scheme s)); ("metric", PStr (bs_metric s)); ("k", bs_k s); ("radius", bs_radius s); ("symmetrize", PStr (bs_symmetrize s));
   ("weights", PDict (weights_dict (bs_weights s))); ("normalize", PStr (bs_normalize s)); ("self_loops", PBool (bs_self_loops s));
   ("backend", PStr (bs_backend s)); ("chunk_size", PInt (bs_chunk_size s)); ("feature_field", PStr (bs_feature_field s));
   ("n_anchors", bs_n_anchors s); ("anchors_k", PInt (bs_anchors_k s)); ("anchors_method", PStr (bs_anchors_method s));
   ("candidate_limit", PInt (bs_candidate_limit s)); ("faiss_exact", PBool (bs_faiss_exact s)); ("faiss_hnsw_m", PInt (bs_faiss_hnsw_m s));
   ("faiss_ef_search", PInt (bs_faiss_ef_search s)); ("faiss_ef_construction", PInt (bs_faiss_ef_construction s))].
(* dict(v).  Simplified: a non-empty list is refused, although Python accepts a list of pairs. *)
Definition py_dict (v : pyval) : result pydict :=
  match v with PDict d => Ok d | PList [] => Ok [] | PStr "" => Ok [] | PList _ => Err ValueError | PStr _ => Err ValueError | _ => Err TypeError end.
(* specs.py lines 182-205 *)
Definition builder_from (o : Oracle) (d : pydict) : result builder_spec :=
  do w <- py_dict (get_or d "weights" (PDict []));
  do chunk <- py_int o (get_or d "chunk_size" (PInt 512));
  do ak <- py_int o (get_or d "anchors_k" (PInt 5));
  do cl <- py_int o (get_or d "candidate_limit" (PInt 1000));
  do hm <- py_int o (get_or d "faiss_hnsw_m" (PInt 32));
  do es <- py_int o (get_or d "faiss_ef_search" (PInt 64));
  do ec <- py_int o (get_or d "faiss_ef_construction" (PInt 200));
  Ok {| bs_scheme := py_str o (get_or d "scheme" (PStr "knn")); bs_metric := py_str o (get_or d "metric" (PStr "cosine"));
        bs_k := get d "k"; bs_radius := get d "radius"; bs_symmetrize := py_str o (get_or d "symmetrize" (PStr "mutual"));
        bs_weights := weights_from o w; bs_normalize := py_str o (get_or d "normalize" (PStr "rw"));
        bs_self_loops := py_bool (get_or d "self_loops" (PBool true)); bs_backend := py_str o (get_or d "backend" (PStr "auto"));
        bs_chunk_size := chunk; bs_feature_field := py_str o (get_or d "feature_field" (PStr "features.X")); bs_n_anchors := get d "n_anchors";
        bs_anchors_k := ak; bs_anchors_method := py_str o (get_or d "anchors_method" (PStr "random")); bs_candidate_limit := cl;
        bs_faiss_exact := py_bool (get_or d "faiss_exact" (PBool false)); bs_faiss_hnsw_m := hm; bs_faiss_ef_search := es; bs_faiss_ef_construction := ec |}.

(* specs.py lines 208-243 *)
Record featurizer_spec := {
  fs_views : list pyval; fs_steps : Z; fs_alpha : f64; fs_method : string; fs_dim : Z; fs_walk_length : Z; fs_num_walks : Z; fs_window : Z;
  fs_p : f64; fs_q : f64; fs_cache : bool }.
(* specs.py lines 228-243: GraphFeaturizerSpec() *)
Definition featurizer_default : featurizer_spec :=
  {| fs_views := [PStr "attr"]; fs_steps := 5; fs_alpha := f_0_1; fs_method := "deepwalk"; fs_dim := 64; fs_walk_length := 40; fs_num_walks := 10;
     fs_window := 5; fs_p := f_1_0; fs_q := f_1_0; fs_cache := true |}.
(* v in ("attr", "diffusion", "struct") *)
Definition known_view (v : pyval) : bool := match v with PStr s => one_of s ["attr"; "diffusion"; "struct"] | _ => false end.
(* specs.py lines 245-270 *)
Definition featurizer_validate (s : featurizer_spec) : result unit :=
  do _ <- reject (fs_steps s <? 0);
  do _ <- reject (negb (f64_leb f64_zero (fs_alpha s) && f64_leb (fs_alpha s) f_1_0));
  do _ <- reject (match fs_views s with [] => true | _ => false end);
  do _ <- reject (negb (forallb known_view (fs_views s)));
  do _ <- reject (negb (one_of (fs_method s) ["deepwalk"; "node2vec"]));
  do _ <- reject (fs_dim s <=? 0);
  do _ <- reject (fs_walk_length s <=? 1);
  do _ <- reject (fs_num_walks s <=? 0);
  do _ <- reject (fs_window s <=? 0);
  do _ <- reject (f64_leb (fs_p s) f64_zero);
  reject (f64_leb (fs_q s) f64_zero).
(* specs.py lines 272-285 *)
Definition featurizer_dict (s : featurizer_spec) : pydict :=
  [("views", PList (fs_views s)); ("diffusion_steps", PInt (fs_steps s)); ("diffusion_alpha", PFloat (fs_alpha s)); ("struct_method", PStr (fs_method s));
   ("struct_dim", PInt (fs_dim s)); ("walk_length", PInt (fs_walk_length s)); ("num_walks_per_node", PInt (fs_num_walks s)); ("window_size", PInt (fs_window s));
   ("p", PFloat (fs_p s)); ("q", PFloat (fs_q s)); ("cache", PBool (fs_cache s))].
(* tuple(v): the items of a list, the characters of a string, the keys of a dictionary *)
Definition py_tuple (v : pyval) : result (list pyval) :=
  match v with
  | PList l => Ok l
  | PStr s => Ok (map (fun c => PStr (String c "")) (list_ascii_of_string s))
  | PDict d => Ok (map (fun p => PStr (fst p)) d)
  | _ => Err TypeError
  end.
(* specs.py lines 287-302 *)
Definition featurizer_from (o : Oracle) (d : pydict) : result featurizer_spec :=
  do views <- py_tuple (get_or d "views" (PList [PStr "attr"]));
  do steps <- py_int o (get_or d "diffusion_steps" (PInt 5));
  do alpha <- py_float o (get_or d "diffusion_alpha" (PFloat f_0_1));
  do dim <- py_int o (get_or d "struct_dim" (PInt 64));
  do wl <- py_int o (get_or d "walk_length" (PInt 40));
  do nw <- py_int o (get_or d "num_walks_per_node" (PInt 10));
  do win <- py_int o (get_or d "window_size" (PInt 5));
  do p <- py_float o (get_or d "p" (PFloat f_1_0));
  do q <- py_float o (get_or d "q" (PFloat f_1_0));
  Ok {| fs_views := views; fs_steps := steps; fs_alpha := alpha; fs_method := py_str o (get_or d "struct_method" (PStr "deepwalk")); fs_dim := dim;
        fs_walk_length := wl; fs_num_walks := nw; fs_window := win; fs_p := p; fs_q := q; fs_cache := py_bool (get_or d "cache" (PBool true)) |}.

(* weights.py lines 9-51, on exact distances; None is NaN, [value] the exact value of a finite float.
   An infinite sigma gives exp(-0) = 1. *)
Definition compute_edge_weights (o : Oracle) (value : f64 -> option Q) (ex : Q -> Q) (metric : string) (w : weights_spec) (d : list Q) : result (list (option Q)) :=
  if String.eqb (ws_kind w) "binary" then Ok (map (fun _ => Some 1%Q) d)
  else if String.eqb (ws_kind w) "heat" then
    do s <- sigma_float o (ws_sigma w);
    if f64_leb s f64_zero then Err GraphValidationError
    else Ok (map (fun x => match s with
                           | S754_nan => None
                           | S754_infinity _ => Some (ex 0%Q)
                           | _ => option_map (fun q => ex (- (x * x) / (2 * q * q))%Q) (value s)
                           end) d)
  else if String.eqb (ws_kind w) "cosine" then
    if negb (String.eqb metric "cosine") then Err GraphValidationError else Ok (map (fun x => Some (1 - x)%Q) d)
  else Err GraphValidationError.
