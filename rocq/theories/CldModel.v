(* Model of the data set commands of the command line (src/modssc/cli/datasets.py).
   The data loader is a parameter: what it answers.  A run is what is printed, what goes to the error stream, the calls made to the loader and how the process ends.
   Not modelled: the parsing of the options, log levels, the JSON text of info. *)
From Coq Require Import String Ascii.
From Verif Require Import Prelude DecString.
Local Open Scope string_scope.
Local Open Scope list_scope.
Local Notation length := List.length.

(* errors.py: OptionalDependencyError and the other DataLoaderErrors; Foreign: any other error *)
Inductive failure := NoExtra (msg : string) | Loader (msg : string) | Foreign (msg : string).
Inductive ending := Exit (code : Z) | Crash (msg : string).
Inductive call := All (force ignore skip : bool) (modalities : option (list string)) | One (id : string) (force : bool) | PurgePrint (fp : string) | PurgeData (id : string) | Gc.
Record run := { out : list string; err : list string; made : list call; ends : ending }.
(* exit_with_error (_utils.py lines 21-23) *)
Definition exit_with_error (made : list call) (msg : string) : run := {| out := []; err := [msg]; made := made; ends := Exit 2 |}.
(* except DataLoaderError *)
Definition caught (made : list call) (f : failure) : run := match f with NoExtra m | Loader m => exit_with_error made m | Foreign m => {| out := []; err := []; made := made; ends := Crash m |} end.
(* sorted(d.items()) of a mapping: by key *)
Fixpoint insert {A} (e : string * A) (l : list (string * A)) : list (string * A) := match l with [] => [e] | x :: r => if String.leb (fst e) (fst x) then e :: x :: r else x :: insert e r end.
Fixpoint sort {A} (l : list (string * A)) : list (string * A) := match l with [] => [] | e :: r => insert e (sort r) end.
(* DownloadReport (src/modssc/data_loader/types.py lines 159-177); summary is printed as four lines *)
Record report := { r_downloaded : list string; r_cached : list string; r_skipped : list string; r_missing : list (string * list string); r_failed : list (string * string) }.
Definition count {A} (l : list A) : string := dec (lenZ l).
Definition summary (r : report) : list string :=
  ["Downloaded: " ++ count (r_downloaded r); "Skipped (already cached): " ++ count (r_cached r); "Skipped (missing extras): " ++ count (r_skipped r); "Failed: " ++ count (r_failed r)]%string.

Section Commands.
Variable keys : list string.
Variable info : string -> string + failure.
Variable all : bool -> bool -> bool -> option (list string) -> report + failure.
Variable one : string -> bool -> unit + failure.
Variable purge_dataset : string -> list string.
Variable gc : list string.
(* [k for k in keys if api.dataset_info(k).modality in wanted]; info gives the modality *)
Fixpoint wanted_keys (wanted ks : list string) : list string + failure :=
  match ks with
  | [] => inl []
  | k :: r => match info k with
              | inr f => inr f
              | inl m => match wanted_keys wanted r with inr f => inr f | inl l => inl (if existsb (String.eqb m) wanted then k :: l else l) end
              end
  end.
(* list_datasets (datasets.py lines 29-46) *)
Definition list_datasets (modalities : option (list string)) : run :=
  match modalities with
  | None | Some [] => {| out := keys; err := []; made := []; ends := Exit 0 |}
  | Some w => match wanted_keys w keys with inl l => {| out := l; err := []; made := []; ends := Exit 0 |} | inr f => caught [] f end
  end.
(* download (datasets.py lines 64-117) *)
Definition download (id : option string) (everything force ignore skip : bool) (modalities : option (list string)) : run :=
  if everything then
    let made := [All force ignore skip modalities] in
    match all force ignore skip modalities with
    | inr f => caught made f
    | inl r =>
      {| out := summary r
                ++ (match r_missing r with [] => [] | l => "" :: "Missing extras:" :: map (fun e => fst e ++ ": " ++ String.concat ", " (snd e))%string (sort l) end)
                ++ (match r_failed r with [] => [] | l => "" :: "Failed:" :: map (fun e => fst e ++ ": " ++ snd e)%string (sort l) end);
         err := []; made := made; ends := Exit (match r_failed r with [] => 0 | _ => 2 end) |}
    end
  else
    match id with
    | None => exit_with_error [] "Provide --dataset or use --all"
    | Some id =>
      let made := [One id force] in
      match one id force with
      | inl _ => {| out := ["Downloaded: " ++ id]%string; err := []; made := made; ends := Exit 0 |}
      | inr (NoExtra m) => if ignore then {| out := ["Skipped " ++ id ++ ": " ++ m]%string; err := []; made := made; ends := Exit 0 |} else caught made (NoExtra m)
      | inr f => caught made f
      end
    end.
(* cache_purge (datasets.py lines 137-152) *)
Definition cache_purge (x : string) (fingerprint : bool) : run :=
  if fingerprint then {| out := ["Purged fingerprint: " ++ x]%string; err := []; made := [PurgePrint x]; ends := Exit 0 |}
  else {| out := ["Purged variants: " ++ count (purge_dataset x)]%string; err := []; made := [PurgeData x]; ends := Exit 0 |}.
(* cache_gc (datasets.py lines 155-168) *)
Definition cache_gc (keep_latest : bool) : run :=
  if keep_latest then {| out := ["Removed: " ++ count gc]%string; err := []; made := [Gc]; ends := Exit 0 |}
  else {| out := ["Nothing to do."]; err := []; made := []; ends := Exit 0 |}.
End Commands.
