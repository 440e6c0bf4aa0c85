(* Model of the dataset cache: src/modssc/data_loader/storage/files.py, storage/json.py and the
   parts of cache.py and services/service.py that decide what is on disk.

   Array contents are of an arbitrary type A.  Not modelled: the sqlite index (see IndexModel.v),
   rebasing of torchaudio paths, conversion to numpy, the provider itself (an arbitrary result). *)
From Coq Require Import String.
From Verif Require Import Prelude PyValue FsModel.
Local Open Scope list_scope.

(* --------------------------------------------------------------------------- json.py:10-39 *)
(* to_jsonable restricted to JSON-like values; lists of more than 50 items are replaced by a stub *)
Fixpoint to_jsonable (v : pyval) : pyval :=
  match v with
  | PList l =>
      if 50 <? lenZ l
      then PDict [("__type__"%string, PStr "list"); ("len"%string, PInt (lenZ l))]
      else PList (map to_jsonable l)
  | PDict d => PDict (map (fun p => (fst p, to_jsonable (snd p))) d)
  | _ => v
  end.
Definition mapping_to_jsonable (d : pydict) : pydict := map (fun p => (fst p, to_jsonable (snd p))) d.

(* ----------------------------------------------------------------------------- types.py Split *)
Record dsplit (A : Type) := {
  ds_X : A; ds_y : A; ds_edges : option A; ds_masks : option (list (string * A))
}.
Arguments ds_X {A}. Arguments ds_y {A}. Arguments ds_edges {A}. Arguments ds_masks {A}.
Record dataset (A : Type) := { d_train : dsplit A; d_test : option (dsplit A); d_meta : pydict }.
Arguments d_train {A}. Arguments d_test {A}. Arguments d_meta {A}.

(* the layout entry of a split: file names only (format is determined by the array kind) *)
Record split_info := {
  i_X : string; i_y : string; i_edges : option string; i_masks : option (list (string * string))
}.
Record layout := { lay_train : split_info; lay_test : option split_info }.

Inductive cfile (A : Type) :=
| CArr (a : A) | CMeta (m : pydict) | CLayout (l : layout) | CManifest | CLock.
Arguments CArr {A} a. Arguments CMeta {A} m. Arguments CLayout {A} l. Arguments CManifest {A}.
Arguments CLock {A}.

Section Storage.
Context {A : Type}.
(* files.py:140-153: ".jsonl.gz" for arrays of strings, ".npy" otherwise.  Boolean mask arrays are
   never arrays of strings. *)
Variable ext : A -> string.

Definition write_whole (p : path) (v : cfile A) : list (step (cfile A)) := [STorn p; SWrite p v].

Definition save_array (root : path) (stem : string) (a : A) : string * list (step (cfile A)) :=
  let name := (stem ++ ext a)%string in (name, write_whole (root ++ [name]) (CArr a)).

Fixpoint save_masks (root : path) (name : string) (ms : list (string * A))
  : list (string * string) * list (step (cfile A)) :=
  match ms with
  | [] => ([], [])
  | (k, a) :: r =>
      let '(fname, s1) := save_array root (name ++ "_mask_" ++ k)%string a in
      let '(infos, s2) := save_masks root name r in
      ((k, fname) :: infos, s1 ++ s2)
  end.

(* files.py:103-124 _save_split *)
Definition save_split_files (root : path) (name : string) (s : dsplit A)
  : split_info * list (step (cfile A)) :=
  let '(nx, s1) := save_array root (name ++ "_X")%string (ds_X s) in
  let '(ny, s2) := save_array root (name ++ "_y")%string (ds_y s) in
  let '(ne, s3) := match ds_edges s with
                   | None => (None, [])
                   | Some e => let '(n, st) := save_array root (name ++ "_edges")%string e in (Some n, st)
                   end in
  let '(nm, s4) := match ds_masks s with
                   | None => (None, [])
                   | Some ms => let '(n, st) := save_masks root name ms in (Some n, st)
                   end in
  ({| i_X := nx; i_y := ny; i_edges := ne; i_masks := nm |}, s1 ++ s2 ++ s3 ++ s4).

Definition meta_path (root : path) : path := root ++ ["meta.json"%string].
Definition layout_path (root : path) : path := root ++ ["layout.json"%string].

(* files.py:74-91 save.  json.dumps(sort_keys=True) may reorder the masks dictionary; dictionaries are
   compared without order in Python, so the order is kept here. *)
Definition storage_save (root : path) (d : dataset A) : list (step (cfile A)) :=
  let '(itr, s1) := save_split_files root "train" (d_train d) in
  let '(ite, s2) := match d_test d with
                    | None => (None, [])
                    | Some t => let '(i, st) := save_split_files root "test" t in (Some i, st)
                    end in
  SMkdir root :: s1 ++ s2 ++
  write_whole (meta_path root) (CMeta (mapping_to_jsonable (d_meta d))) ++
  write_whole (layout_path root) (CLayout {| lay_train := itr; lay_test := ite |}).

(* files.py:155-185 _load_array: a torn array raises ManifestError or another error, depending on
   where it was cut (numpy's ValueError is wrapped, EOFError is not) *)
Variable torn_array : exn.

Definition load_array (f : fs (cfile A)) (root : path) (name : string) : result A :=
  do v <- read_file torn_array f (root ++ [name]);
  match v with CArr a => Ok a | _ => Err ManifestError end.

Fixpoint load_masks (f : fs (cfile A)) (root : path) (l : list (string * string))
  : result (list (string * A)) :=
  match l with
  | [] => Ok []
  | (k, n) :: r => do a <- load_array f root n; do t <- load_masks f root r; Ok ((k, a) :: t)
  end.

(* files.py:126-138 _load_split *)
Definition load_split_files (f : fs (cfile A)) (root : path) (i : split_info) : result (dsplit A) :=
  do x <- load_array f root (i_X i);
  do y <- load_array f root (i_y i);
  do e <- match i_edges i with
          | None => Ok None | Some n => do a <- load_array f root n; Ok (Some a) end;
  do m <- match i_masks i with
          | None => Ok None | Some l => do t <- load_masks f root l; Ok (Some t) end;
  Ok {| ds_X := x; ds_y := y; ds_edges := e; ds_masks := m |}.

(* files.py:93-101 load *)
Definition storage_load (f : fs (cfile A)) (root : path) : result (dataset A) :=
  do lv <- read_file JSONDecodeError f (layout_path root);
  match lv with
  | CLayout l =>
      do tr <- load_split_files f root (lay_train l);
      do te <- match lay_test l with
               | None => Ok None
               | Some i => do t <- load_split_files f root i; Ok (Some t) end;
      do mv <- read_file JSONDecodeError f (meta_path root);
      match mv with
      | CMeta m => Ok {| d_train := tr; d_test := te; d_meta := m |}
      | _ => Err JSONDecodeError
      end
  | _ => Err JSONDecodeError
  end.

(* ------------------------------------------------------------------------------ cache.py *)
(* cache.py:39-77 CacheLayout for one fingerprint *)
Record entry := { e_processed : path; e_manifest : path; e_lock : path }.
Definition entry_of (root : path) (fp : string) : entry :=
  {| e_processed := root ++ ["processed"%string; fp];
     e_manifest := root ++ ["manifests"%string; (fp ++ ".json")%string];
     e_lock := root ++ ["locks"%string; (fp ++ ".lock")%string] |}.

(* cache.py:109-112 *)
Definition is_cached (f : fs (cfile A)) (e : entry) : bool :=
  match f (e_processed e), f (e_manifest e) with
  | Some NDir, Some (NFile _) => true
  | _, _ => false
  end.

(* shutil.rmtree: the entries of the directory in the order in which the operating system lists
   them, then the directory itself *)
Variable listing : fs (cfile A) -> path -> list path.
Definition rmtree (d : path) : prog (cfile A) unit :=
  fun f => match f d with
           | Some NDir => (Ok tt, map SUnlink (listing f d) ++ [SUnlink d])
           | _ => (Ok tt, [])
           end.

(* cache.py:267-271 purge_fingerprint *)
Definition purge (e : entry) : prog (cfile A) unit :=
  run! _ <- rmtree (e_processed e); psteps [SUnlink (e_manifest e)].

(* service.py:493-516 _load_processed_or_purge / _load_processed *)
Definition load_or_purge (e : entry) : prog (cfile A) (option (dataset A)) :=
  fun f =>
    match storage_load f (e_processed e) with
    | Ok d => (Ok (Some d), [])
    | Err ManifestError => (run! _ <- purge e; pret None) f
    | Err x => (Err x, [])
    end.

(* cache.py:89-106 cache_lock around a body: creation fails if the file exists, and the finally
   clause removes the lock file in every case *)
Definition with_lock {B} (e : entry) (body : prog (cfile A) B) : prog (cfile A) B :=
  pfinally
    (fun f => if exists_path f (e_lock e) then (Err FileExistsError, [])
              else (run! _ <- psteps (write_whole (e_lock e) CLock); body) f)
    [SUnlink (e_lock e)].

(* service.py:459-480: what happens once the provider has delivered a dataset *)
Definition store (e : entry) (d : dataset A) : prog (cfile A) unit :=
  run! ex <- pread (fun f => exists_path f (e_processed e));
  run! _ <- (if ex then rmtree (e_processed e) else pret tt);
  psteps (storage_save (e_processed e) d ++ write_whole (e_manifest e) CManifest).

(* service.py:433-490 _download_and_store; provider is what provider.load_canonical returns, with
   the fingerprint already injected into meta *)
Definition download_and_store (e : entry) (provider : result (dataset A)) (force : bool)
  : prog (cfile A) (dataset A) :=
  let fetch :=
    run! d <- plift provider;
    run! _ <- store e d;
    pret d in
  let attempt (k : prog (cfile A) (dataset A)) : prog (cfile A) (dataset A) :=
    run! c <- pread (fun f => is_cached f e);
    if negb force && c then
      run! o <- load_or_purge e;
      match o with Some d => pret d | None => k end
    else k in
  attempt (with_lock e (attempt fetch)).

(* service.py:188-245 load_dataset *)
Definition load_dataset (e : entry) (provider : result (dataset A)) (download force : bool)
  : prog (cfile A) (dataset A) :=
  let miss :=
    if negb download then praise DatasetNotCachedError else download_and_store e provider force in
  run! c <- pread (fun f => is_cached f e);
  if negb force && c then
    run! o <- load_or_purge e;
    match o with Some d => pret d | None => miss end
  else miss.
End Storage.
