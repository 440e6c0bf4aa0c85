(* Specification vocabulary for the dataset cache (C15, C16, C47). *)
From Coq Require Import String.
From Verif Require Import Prelude PyValue FsModel DatasetCacheModel.
Local Open Scope list_scope.

(* a dataset that can be stored: mask names are keys of a dictionary, mask arrays are stored as .npy *)
Definition split_ok {A} (ext : A -> string) (s : dsplit A) : Prop :=
  match ds_masks s with
  | None => True
  | Some ms => NoDup (map fst ms) /\ forall k a, In (k, a) ms -> ext a = ".npy"%string
  end.
Definition dataset_ok {A} (ext : A -> string) (d : dataset A) : Prop :=
  split_ok ext (d_train d) /\ match d_test d with None => True | Some t => split_ok ext t end.

(* the arrays of two datasets agree; only their metadata may differ *)
Definition same_arrays {A} (a b : dataset A) : Prop := d_train a = d_train b /\ d_test a = d_test b.

(* no list of more than 50 items anywhere inside *)
Inductive small : pyval -> Prop :=
| small_none : small PNone
| small_bool b : small (PBool b)
| small_int z : small (PInt z)
| small_float f : small (PFloat f)
| small_str s : small (PStr s)
| small_list l : lenZ l <= 50 -> Forall small l -> small (PList l)
| small_dict d : Forall (fun p => small (snd p)) d -> small (PDict d).

(* every name present in directory d is in the list U *)
Definition names_in {V} (U : list string) (f : fs V) (d : path) : Prop :=
  forall name, f (d ++ [name]) <> None -> In name U.

(* what os.listdir promises: only entries of the directory, in any order, and all of them (for the
   directories whose names are in U; a directory has finitely many entries) *)
Definition listing_ok {V} (U : list string) (listing : fs V -> path -> list path) : Prop :=
  forall f d,
    (forall p, In p (listing f d) -> exists name, p = d ++ [name]) /\
    (names_in U f d -> forall name, f (d ++ [name]) <> None -> In (d ++ [name]) (listing f d)).

(* the state a file system can be in around the directory of a cache entry: the directory is there,
   or neither it nor anything in it is *)
Definition dir_ok {V} (f : fs V) (d : path) : Prop :=
  f d = Some NDir \/ (f d = None /\ forall name, f (d ++ [name]) = None).

(* the state in which a cache entry can be before a call: U lists the names in its directory *)
Definition entry_state {V} (U : list string) (f : fs V) (e : entry) : Prop :=
  dir_ok f (e_processed e) /\ names_in U f (e_processed e).

(* U also lists the names of the files that a dataset is stored in *)
Definition names_of {A} (ext : A -> string) (U : list string) (e : entry) (d : dataset A) : Prop :=
  names_in U (run (storage_save ext (e_processed e) d) (fun _ => None)) (e_processed e).
