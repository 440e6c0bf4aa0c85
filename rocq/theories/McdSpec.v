(* Vocabulary for C175: environments, folders and devices. *)
From Coq Require Import String Ascii.
From Verif Require Import Prelude OmlSpec McdModel.
Local Open Scope string_scope.
Local Open Scope list_scope.
Local Notation length := List.length.

(* the variable k has the value v *)
Definition says (e : env) (k v : string) : Prop := exists a b, e = a ++ (k, v) :: b /\ ~ In k (map fst a).
Definition missing (e : env) (k : string) : Prop := ~ In k (map fst e).
(* missing or set to nothing *)
Definition unset (e : env) (k : string) : Prop := forall v, says e k v -> v = "".
(* the first variable of a table that is set to something decides *)
Inductive chooses (e : env) (table : list (string * (string -> string))) : option string -> Prop :=
| chooses_none : (forall k f, In (k, f) table -> unset e k) -> chooses e table None
| chooses_some a k f b v : table = a ++ (k, f) :: b -> (forall k' f', In (k', f') a -> unset e k') -> says e k v -> v <> "" -> chooses e table (Some (f v)).
Section Tables.
Variable path : string -> string.
Local Notation under q := (fun v => path v ++ q)%string.
Definition root_table := [("MODSSC_MODEL_CACHE_ROOT", path); ("MODSSC_CACHE_ROOT", under "/models")].
Definition torch_table := [("TORCH_HOME", path); ("MODSSC_TORCH_HOME", path); ("MODSSC_MODEL_CACHE_ROOT", under "/torch"); ("MODSSC_CACHE_ROOT", under "/models/torch")].
Definition hf_table := [("HF_HOME", path); ("MODSSC_MODEL_CACHE_ROOT", under "/hf"); ("MODSSC_CACHE_ROOT", under "/models/hf")].
Definition st_table := [("SENTENCE_TRANSFORMERS_HOME", path); ("HF_HOME", under "/sentence_transformers"); ("MODSSC_MODEL_CACHE_ROOT", under "/hf/sentence_transformers"); ("MODSSC_CACHE_ROOT", under "/models/hf/sentence_transformers"); ("TRANSFORMERS_CACHE", path)].
Definition clip_table := [("MODSSC_OPENCLIP_CACHE_DIR", path); ("OPENCLIP_CACHE_DIR", path); ("MODSSC_MODEL_CACHE_ROOT", under "/open_clip"); ("MODSSC_CACHE_ROOT", under "/models/open_clip")].
(* paths are settled: not empty, and what lies in a settled path is settled *)
Definition settles : Prop := (forall s, path s <> "" /\ path (path s) = path s) /\ forall s q, path s = s -> path (s ++ "/" ++ q)%string = (s ++ "/" ++ q)%string.
End Tables.
(* letters in any case *)
Definition folds (c d : ascii) : Prop := c = d \/ (65 <= nat_of_ascii c <= 90 /\ nat_of_ascii d = nat_of_ascii c + 32)%nat.
(* nothing, 0, false, no or off, in any case, with white space around *)
Definition says_no (v : string) : Prop := exists a w b n, list_ascii_of_string v = a ++ w ++ b /\ blank a /\ blank b /\ In n [""; "0"; "false"; "no"; "off"] /\ Forall2 folds w (list_ascii_of_string n).
(* an mps device that works *)
Definition mps_works (m : mps) : Prop := (m_built m = None \/ m_built m = Some (Ok true)) /\ m_available m = Some (Says true) /\ m_zeros m = Ok tt.
(* calls in a row, with the cache kept between them *)
Fixpoint calls (l : list (option string * option (option torch) * option torch)) (cache : option string) : list (result (option string)) :=
  match l with [] => [] | (d, g, f) :: r => let '(x, cache) := resolve_device d g f cache in x :: calls r cache end.
