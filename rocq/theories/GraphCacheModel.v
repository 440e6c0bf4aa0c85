(* Model of src/modssc/graph/cache.py GraphCache (save, load, _clear_entry_dir) and of the caching part of
   src/modssc/graph/construction/services/service.py build_graph.

   W is the type of stored weights (float32 numbers), M the type of graph metadata, U the type of the
   caller's manifest entries; both go through JSON unchanged.  Not modelled: the environment variables that
   choose the cache root, logging, permissions, several processes saving the same entry. *)
From Coq Require Import String.
From Verif Require Import Prelude FsModel DecString GraphOpsModel KnnModel.
Local Open Scope Z_scope.
Local Open Scope list_scope.

Section GraphCache.
Context {W M U : Type}.

(* graph/artifacts.py:20-35 GraphArtifact, weights and metadata of any type *)
Record graph := { g_n : Z; g_edges : list edge; g_w : option (list W); g_directed : bool; g_meta : M }.

(* artifacts.py:36-48 GraphArtifact.__post_init__ *)
Definition mk_graph (n : Z) (edges : list edge) (w : option (list W)) (directed : bool) (meta : M)
  : result graph :=
  if existsb (fun e : edge => (fst e <? 0) || (n <=? fst e) || (snd e <? 0) || (n <=? snd e)) edges
  then Err GraphValidationError
  else match w with
       | Some ws => if negb (lenZ ws =? lenZ edges) then Err GraphValidationError
                    else Ok {| g_n := n; g_edges := edges; g_w := w; g_directed := directed; g_meta := meta |}
       | None => Ok {| g_n := n; g_edges := edges; g_w := w; g_directed := directed; g_meta := meta |}
       end.

Inductive storage := Single | Sharded (num_shards shard_size : Z).
(* cache.py:175 payload: the caller's entries, graph.to_dict(), "_storage" *)
Record gmanifest := { mf_user : U; mf_n : Z; mf_directed : bool; mf_meta : M; mf_storage : storage }.

Inductive gfile :=
| GEdges (l : list edge)                            (* edge_index.npy *)
| GWeights (w : list W)                             (* edge_weight.npy *)
| GShard (l : list edge) (w : option (list W))      (* edges_0000.npz *)
| GManifest (m : gmanifest)                         (* manifest.json *)
| GChunk (l : list (edge * Z)).                     (* a chunk file of the work directory *)

(* f"edges_{i:04d}.npz" *)
Definition pad4 (i : Z) : string :=
  let s := dec i in
  (String.concat "" (repeat "0"%string (4 - String.length s)) ++ s)%string.
Definition shard_name (i : Z) : string := ("edges_" ++ pad4 i ++ ".npz")%string.

Definition write_file (p : path) (v : gfile) : list (step gfile) := [STorn p; SWrite p v].

(* cache.py:124-133 _clear_entry_dir: ls is what iterdir yields, sub what rmtree removes below a
   subdirectory, in the order of removal.  rmtree ignores errors, so sub may be any list. *)
Definition clear_entry (ls : fs gfile -> list string) (sub : fs gfile -> string -> list path) (d : path)
  : prog gfile unit :=
  fun f => (Ok tt, flat_map (fun nm => match f (d ++ [nm]) with
                                      | Some NDir => map (fun q => SUnlink (d ++ nm :: q)) (sub f nm)
                                                     ++ [SUnlink (d ++ [nm])]
                                      | _ => [SUnlink (d ++ [nm])]
                                      end) (ls f)).

Definition slice {A} (l : list A) (s e : Z) : list A := firstn (Z.to_nat (e - s)) (skipn (Z.to_nat s) l).

(* cache.py:157-165: shard i *)
Definition shard (g : graph) (size i : Z) : gfile :=
  let E := lenZ (g_edges g) in
  let s := i * size in
  let e := Z.min E ((i + 1) * size) in
  GShard (slice (g_edges g) s e) (option_map (fun w => slice w s e) (g_w g)).
(* cache.py:155, Python floor division *)
Definition num_shards (E size : Z) : Z := (E + size - 1) / size.

(* cache.py:135-177 GraphCache.save; shard_size = 0 stands for edge_shard_size None or 0; rnd is the random
   part of the manifest's temporary name (_safe_write_json, cache.py:62-75) *)
Definition save_edges (d : path) (shard_size : Z) (g : graph) : list (step gfile) * storage :=
  let E := lenZ (g_edges g) in
  if negb (shard_size =? 0) && (shard_size <? E)
  then let n := num_shards E shard_size in
       (flat_map (fun i => write_file (d ++ [shard_name i]) (shard g shard_size i)) (arange n),
        Sharded n shard_size)
  else (write_file (d ++ ["edge_index.npy"%string]) (GEdges (g_edges g))
        ++ match g_w g with
           | Some w => write_file (d ++ ["edge_weight.npy"%string]) (GWeights w)
           | None => []
           end, Single).
Definition save (ls : fs gfile -> list string) (sub : fs gfile -> string -> list path) (d : path)
    (shard_size : Z) (g : graph) (user : U) (overwrite : bool) (rnd : string) : prog gfile unit :=
  run! u <- psteps [SMkdir d];
  run! u <- (if overwrite then clear_entry ls sub d else pret tt);
  let '(steps, st) := save_edges d shard_size g in
  run! u <- psteps steps;
  psteps (atomic_write (d ++ [("manifest.json" ++ rnd ++ ".tmp")%string]) (d ++ ["manifest.json"%string])
            (GManifest {| mf_user := user; mf_n := g_n g; mf_directed := g_directed g; mf_meta := g_meta g;
                          mf_storage := st |})).

(* cache.py:179-197 _load_edges_single: any failure to read edge_index.npy or an existing edge_weight.npy
   is a GraphCacheError *)
Definition load_single (f : fs gfile) (d : path) : result (list edge * option (list W)) :=
  match f (d ++ ["edge_index.npy"%string]) with
  | Some (NFile (Whole (GEdges l))) =>
      match f (d ++ ["edge_weight.npy"%string]) with
      | None => Ok (l, None)
      | Some (NFile (Whole (GWeights w))) => Ok (l, Some w)
      | Some _ => Err CacheError
      end
  | _ => Err CacheError
  end.

(* cache.py:199-247 _load_edges_sharded.  The two passes over the files are one here: nothing changes the
   files in between.  has_w is fixed by the first shard. *)
Fixpoint load_shards (f : fs gfile) (d : path) (has_w : option bool) (ids : list Z)
  : result (list edge * list W * option bool) :=
  match ids with
  | [] => Ok ([], [], has_w)
  | i :: r =>
      match f (d ++ [shard_name i]) with
      | None => Err CacheError
      | Some (NFile (Whole (GShard l w))) =>
          let present := match w with Some _ => true | None => false end in
          if match has_w with Some h => negb (Bool.eqb h present) | None => false end then Err CacheError
          else match w with
               | Some ws => if negb (lenZ ws =? lenZ l) then Err ValueError
                            else do ' (ls, wss, h) <- load_shards f d (Some true) r; Ok (l ++ ls, ws ++ wss, h)
               | None => do ' (ls, wss, h) <- load_shards f d (Some false) r; Ok (l ++ ls, wss, h)
               end
      | Some _ => Err ValueError
      end
  end.
Definition load_sharded (f : fs gfile) (d : path) (num : Z) : result (list edge * option (list W)) :=
  do ' (l, w, h) <- load_shards f d None (arange num);
  Ok (l, match h with Some true => Some w | _ => None end).

(* cache.py:249-277 GraphCache.load *)
Definition load (f : fs gfile) (d : path) : result (graph * gmanifest) :=
  match f (d ++ ["manifest.json"%string]) with
  | None => Err CacheError
  | Some (NFile (Whole (GManifest m))) =>
      do ' (l, w) <- (match mf_storage m with
                      | Sharded num _ => load_sharded f d num
                      | Single => load_single f d
                      end);
      do g <- mk_graph (mf_n m) l w (mf_directed m) (mf_meta m);
      Ok (g, m)
  | Some _ => Err CacheError
  end.
(* cache.py:94-95 exists *)
Definition entry_exists (f : fs gfile) (d : path) : bool := exists_path f (d ++ ["manifest.json"%string]).

(* ------------------------------------------- construction/services/service.py:104-200 build_graph *)
(* finish: from raw edges and distances to the artifact (edge weights, symmetrisation, self-loops,
   normalisation, finiteness check, GraphArtifact), service.py:145-189.  raw: build_raw_edges with the given
   work directory.  d: the cache entry of the graph's fingerprint. *)
Definition build_graph (raw : option path -> prog gfile (list (edge * Z)))
    (finish : list (edge * Z) -> result graph) (user : U)
    (ls : fs gfile -> list string) (sub : fs gfile -> string -> list path) (d : path)
    (shard_size : Z) (cache resume : bool) (rnd : string) : prog gfile graph :=
  run! here <- pread (fun f => cache && entry_exists f d);
  if here
  then (fun f => (do ' (g, m) <- load f d; Ok g, []))
  else
    run! wd <- (if cache && resume
                then run! u <- psteps [SMkdir d; SMkdir (d ++ ["_work"%string])]; pret (Some (d ++ ["_work"%string]))
                else pret None);
    run! edges <- raw wd;
    run! g <- plift (finish edges);
    run! u <- (if cache then save ls sub d shard_size g user true rnd else pret tt);
    pret g.

(* service.py:145-189, the last step: post is any computation of edges and weights, GraphArtifact checks them *)
Definition finish_graph (n : Z) (directed : bool) (meta : M)
    (post : list (edge * Z) -> result (list edge * option (list W))) (raw : list (edge * Z)) : result graph :=
  do ' (l, w) <- post raw; mk_graph n l w directed meta.

(* construction/builder.py:46-83 build_raw_edges for scheme knn and the numpy backend: chunk files are kept
   in <work dir>/knn *)
Definition chunk_of_file (v : gfile) : result (list (edge * Z)) :=
  match v with GChunk l => Ok l | _ => Err ValueError end.
Definition raw_knn part argsort val D (n k chunk : Z) (resume : bool) (rnds : Z -> string)
    (wd : option path) : prog gfile (list (edge * Z)) :=
  match wd with
  | None => plift (knn_numpy part argsort val D n k false chunk)
  | Some w => run! u <- psteps [SMkdir w];
              knn_numpy_wd part argsort val D GChunk chunk_of_file n k false chunk (w ++ ["knn"%string]) resume rnds
  end.
End GraphCache.
Arguments graph : clear implicits. Arguments gfile : clear implicits. Arguments gmanifest : clear implicits.
