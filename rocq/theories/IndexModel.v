(* Model of the index operations of src/modssc/data_loader/cache.py and of the bulk download report
   of services/service.py.

   The sqlite table is a list of rows; fingerprint is its primary key.  The order of the result of a
   SELECT ... ORDER BY is left to the database: any permutation of the matching rows that is sorted
   as requested.  Time stamps are of an arbitrary type. *)
From Coq Require Import String.
From Verif Require Import Prelude PyValue.
Local Open Scope list_scope.

Record row (T : Type) := { r_fp : string; r_uri : string; r_at : T }.
Arguments r_fp {T}. Arguments r_uri {T}. Arguments r_at {T}.

(* cache.py:168-197 index_upsert: INSERT ... ON CONFLICT(fingerprint) DO UPDATE *)
Definition index_upsert {T} (table : list (row T)) (r : row T) : list (row T) :=
  if memS (r_fp r) (map r_fp table)
  then map (fun x => if String.eqb (r_fp x) (r_fp r) then r else x) table
  else table ++ [r].

(* cache.py:228-238 index_delete *)
Definition index_delete {T} (table : list (row T)) (fp : string) : list (row T) :=
  filter (fun x => negb (String.eqb (r_fp x) fp)) table.

(* cache.py:298-306: the loop of gc_keep_latest over the ordered rows *)
Fixpoint gc_scan {T} (rows : list (row T)) (latest : list string) : list string :=
  match rows with
  | [] => []
  | r :: rest =>
      if memS (r_uri r) latest then r_fp r :: gc_scan rest latest
      else gc_scan rest (r_uri r :: latest)
  end.

(* cache.py:283-311 gc_keep_latest; `ordered` is what the SELECT returned.  Result: the new table and
   the list of purged fingerprints. *)
Definition gc_keep_latest {T} (table ordered : list (row T)) : list (row T) * list string :=
  let dead := gc_scan ordered [] in (fold_left index_delete dead table, dead).

(* cache.py:274-280 purge_dataset *)
Definition purge_dataset {T} (table matching : list (row T)) : list (row T) * list string :=
  let fps := map r_fp matching in (fold_left index_delete fps table, fps).

(* ------------------------------------------------------------- service.py:290-381 download_all *)
(* what one key did: resolving, looking up the cache and downloading *)
Inductive one :=
| Cached                    (* skip_cached and is_cached *)
| Done                      (* download_dataset returned *)
| MissingExtra (extra : string)
| Broke (msg : string).     (* any other exception *)

Record report := {
  downloaded : list string; skipped_cached : list string; skipped_missing : list string;
  missing_extras : list (string * list string); failed : list (string * string)
}.
Definition empty_report : report :=
  {| downloaded := []; skipped_cached := []; skipped_missing := []; missing_extras := []; failed := [] |}.

(* dict.setdefault(k, []).append(v) *)
Fixpoint append_to (k v : string) (d : list (string * list string)) : list (string * list string) :=
  match d with
  | [] => [(k, [v])]
  | (k', l) :: r => if String.eqb k k' then (k', l ++ [v]) :: r else (k', l) :: append_to k v r
  end.

(* service.py:317-340: the loop.  `outcome` is what the body of the try does for a key; it is only
   consulted for keys the loop reaches, which the returned list of visited keys records. *)
Fixpoint download_loop (outcome : string -> one) (ignore_missing : bool) (keys : list string)
  (rep : report) (visited : list string) : result report * list string :=
  match keys with
  | [] => (Ok rep, visited)
  | k :: rest =>
      let visited := visited ++ [k] in
      match outcome k with
      | Cached =>
          download_loop outcome ignore_missing rest
            {| downloaded := downloaded rep; skipped_cached := skipped_cached rep ++ [k];
               skipped_missing := skipped_missing rep; missing_extras := missing_extras rep;
               failed := failed rep |} visited
      | Done =>
          download_loop outcome ignore_missing rest
            {| downloaded := downloaded rep ++ [k]; skipped_cached := skipped_cached rep;
               skipped_missing := skipped_missing rep; missing_extras := missing_extras rep;
               failed := failed rep |} visited
      | MissingExtra x =>
          if ignore_missing then
            download_loop outcome ignore_missing rest
              {| downloaded := downloaded rep; skipped_cached := skipped_cached rep;
                 skipped_missing := skipped_missing rep ++ [k];
                 missing_extras := append_to x k (missing_extras rep);
                 failed := failed rep |} visited
          else (Err OptionalDependencyError, visited)
      | Broke m =>
          download_loop outcome ignore_missing rest
            {| downloaded := downloaded rep; skipped_cached := skipped_cached rep;
               skipped_missing := skipped_missing rep; missing_extras := missing_extras rep;
               failed := failed rep ++ [(k, m)] |} visited
      end
  end.

Fixpoint assoc {A} (k : string) (l : list (string * A)) : option A :=
  match l with [] => None | (k', v) :: r => if String.eqb k k' then Some v else assoc k r end.

(* service.py:368-381 _select_catalog_keys: `catalog` maps each key to its modality; sorted(set) is
   any sorting function *)
Definition select_keys (sort : list string -> list string) (catalog : list (string * string))
  (include exclude modalities : option (list string)) : result (list string) :=
  let keys := match include with None => map fst catalog | Some l => l end in
  let selected := nodup string_dec keys in
  let selected := match exclude with
                  | None => selected
                  | Some e => filter (fun k => negb (memS k e)) selected end in
  match modalities with
  | None | Some [] => Ok (sort selected)
  | Some ms =>
      (fix go (l acc : list string) : result (list string) :=
         match l with
         | [] => Ok (sort (rev acc))
         | k :: r => match assoc k catalog with
                     | None => Err KeyError
                     | Some m => go r (if memS m ms then k :: acc else acc)
                     end
         end) selected []
  end.

(* service.py:290-353 download_all_datasets *)
Definition download_all (sort : list string -> list string) (catalog : list (string * string))
  (include exclude modalities : option (list string)) (outcome : string -> one)
  (ignore_missing : bool) : result report * list string :=
  match select_keys sort catalog include exclude modalities with
  | Err x => (Err x, [])
  | Ok keys => download_loop outcome ignore_missing keys empty_report []
  end.
