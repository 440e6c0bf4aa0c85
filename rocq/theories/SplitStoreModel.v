(* Model of src/modssc/sampling/storage.py.  The metadata dictionary written to split.json is of an
   arbitrary type M (json.dumps/json.loads on it is taken to be the identity); index arrays are
   integers inside the int64 range, masks are booleans. *)
From Coq Require Import String.
From Verif Require Import Prelude FsModel.
Local Open Scope list_scope.

Record split_result (M : Type) := {
  sr_meta : M;
  sr_indices : list (string * list Z);
  sr_masks : list (string * list bool)
}.
Arguments sr_meta {M}. Arguments sr_indices {M}. Arguments sr_masks {M}.

Inductive array := AInt (l : list Z) | ABool (l : list bool).
Inductive split_file (M : Type) := FMeta (m : M) | FArrays (l : list (string * array)).
Arguments FMeta {M} m. Arguments FArrays {M} l.

Definition json_path (d : path) : path := d ++ ["split.json"%string].
Definition npz_path (d : path) : path := d ++ ["arrays.npz"%string].

(* the temporary file is none of the directory, split.json and arrays.npz (tempfile picks an unused
   name) *)
Definition tmp_in (d : path) (tmp : path) : Prop :=
  tmp <> d /\ tmp <> json_path d /\ tmp <> npz_path d.

(* storage.py:30-34 *)
Definition pack {M} (r : split_result M) : list (string * array) :=
  map (fun p => (("idx__" ++ fst p)%string, AInt (snd p))) (sr_indices r) ++
  map (fun p => (("mask__" ++ fst p)%string, ABool (snd p))) (sr_masks r).

(* storage.py:16-36, the writes; tmp is the name of the temporary file *)
Definition save_steps {M} (d tmp : path) (r : split_result M) : list (step (split_file M)) :=
  SMkdir d :: atomic_write tmp (json_path d) (FMeta (sr_meta r)) ++
  [STorn (npz_path d); SWrite (npz_path d) (FArrays (pack r))].

(* storage.py:12-37 save_split *)
Definition save_split {M} (d tmp : path) (r : split_result M) (overwrite : bool)
    (f : fs (split_file M)) : result (list (step (split_file M))) :=
  if exists_path f d && negb overwrite then Err FileExistsError
  else Ok (save_steps d tmp r).

(* k.startswith(prefix), k[len(prefix):] *)
Fixpoint strip (prefix k : string) : option string :=
  match prefix, k with
  | EmptyString, _ => Some k
  | String a p, String b r => if Ascii.eqb a b then strip p r else None
  | _, _ => None
  end.

(* storage.py:46-51; np.asarray(x, dtype=int64 / bool) on an array of the other type converts it *)
Definition as_int (a : array) : list Z :=
  match a with AInt l => l | ABool l => map (fun b : bool => if b then 1 else 0) l end.
Definition as_bool (a : array) : list bool :=
  match a with ABool l => l | AInt l => map (fun z => negb (z =? 0)) l end.

Fixpoint unpack (l : list (string * array)) : list (string * list Z) * list (string * list bool) :=
  match l with
  | [] => ([], [])
  | (k, a) :: r =>
      let '(ix, ms) := unpack r in
      match strip "idx__" k with
      | Some n => ((n, as_int a) :: ix, ms)
      | None => match strip "mask__" k with
                | Some n => (ix, (n, as_bool a) :: ms)
                | None => (ix, ms)
                end
      end
  end.

(* storage.py:40-63 load_split *)
Definition load_split {M} (d : path) (f : fs (split_file M)) : result (split_result M) :=
  do j <- read_file JSONDecodeError f (json_path d);
  do a <- read_file ValueError f (npz_path d);
  match j, a with
  | FMeta m, FArrays l =>
      Ok {| sr_meta := m; sr_indices := fst (unpack l); sr_masks := snd (unpack l) |}
  | _, _ => Err ValueError
  end.
