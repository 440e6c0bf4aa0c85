(* Model of the folders of downloaded models (src/modssc/cache/model.py) and of the choice of a device (src/modssc/runtime/device.py).
   The environment is the list of its variables; text is ASCII.  Path(value).expanduser().resolve() is a parameter; a path is its text. *)
From Coq Require Import String Ascii.
From Verif Require Import Prelude.
From Verif Require BenchIoModel OmlModel.
Local Open Scope string_scope.
Local Open Scope list_scope.
Local Notation length := List.length.

Definition env := list (string * string).
(* os.environ.get *)
Fixpoint get (e : env) (k : string) : option string := match e with [] => None | (k', v) :: r => if String.eqb k' k then Some v else get r k end.
(* os.environ.setdefault *)
Definition setdefault (e : env) (k v : string) : env := match get e k with Some _ => e | None => e ++ [(k, v)] end.
(* env_flag (model.py lines 6-13) *)
Definition false_values : list string := [""; "0"; "false"; "no"; "off"].
Definition env_flag (e : env) (k : string) : bool :=
  match get e k with
  | None => false
  | Some v => negb (existsb (String.eqb (string_of_list_ascii (map BenchIoModel.lower (OmlModel.strip (list_ascii_of_string v))))) false_values)
  end.
(* the value of a variable that is set to something *)
Definition filled (e : env) (k : string) : option string := match get e k with Some v => if String.eqb v "" then None else Some v | None => None end.
Fixpoint first_filled (e : env) (ks : list string) : option string := match ks with [] => None | k :: r => match filled e k with Some v => Some v | None => first_filled e r end end.

Section Paths.
Variable path : string -> string.
Definition join (p q : string) : string := (p ++ "/" ++ q)%string.
(* resolve_model_cache_root (model.py lines 20-28) *)
Definition model_root (e : env) : option string :=
  match filled e "MODSSC_MODEL_CACHE_ROOT" with
  | Some v => Some (path v)
  | None => match filled e "MODSSC_CACHE_ROOT" with Some v => Some (join (path v) "models") | None => None end
  end.
Definition in_root (e : env) (q : string) : option string := match model_root e with Some r => Some (join r q) | None => None end.
(* resolve_hf_home (model.py lines 31-39) *)
Definition hf_home (e : env) : option string := match filled e "HF_HOME" with Some v => Some (path v) | None => in_root e "hf" end.
(* resolve_sentence_transformers_cache (model.py lines 42-54) *)
Definition st_cache (e : env) : option string :=
  match filled e "SENTENCE_TRANSFORMERS_HOME" with
  | Some v => Some (path v)
  | None => match hf_home e with
            | Some h => Some (join h "sentence_transformers")
            | None => match filled e "TRANSFORMERS_CACHE" with Some v => Some (path v) | None => None end
            end
  end.
(* resolve_hf_local_files_only (model.py lines 57-61) *)
Definition local_only (e : env) : bool := existsb (env_flag e) ["MODSSC_HF_LOCAL_FILES_ONLY"; "HF_HUB_OFFLINE"; "TRANSFORMERS_OFFLINE"].
(* resolve_openclip_cache_dir (model.py lines 64-73) *)
Definition openclip_dir (e : env) : option string := match first_filled e ["MODSSC_OPENCLIP_CACHE_DIR"; "OPENCLIP_CACHE_DIR"] with Some v => Some (path v) | None => in_root e "open_clip" end.
(* resolve_torch_home (model.py lines 76-85) *)
Definition torch_home (e : env) : option string := match first_filled e ["TORCH_HOME"; "MODSSC_TORCH_HOME"] with Some v => Some (path v) | None => in_root e "torch" end.
(* ensure_torch_home (model.py lines 88-92) *)
Definition ensure_torch_home (e : env) : option string * env := (torch_home e, match torch_home e with Some h => setdefault e "TORCH_HOME" h | None => e end).
(* torchaudio_download_kwargs (model.py lines 95-100): the folder of the download *)
Definition download_dir (e : env) : option string * env := let '(h, e) := ensure_torch_home e in (match h with Some h => Some (join (join h "hub") "checkpoints") | None => None end, e).
End Paths.

(* what an attribute check may answer: a boolean, something else, or an error *)
Inductive answer := Says (b : bool) | Else | Raises (e : exn).
(* a torch module: cuda.is_available (None: not there), mps (None: not there) with is_built, is_available and the trial tensor *)
Record mps := { m_built : option (result bool); m_available : option answer; m_zeros : result unit }.
Record torch := { t_cuda : option answer; t_mps : option mps }.
(* mps_is_available (device.py lines 9-37), the computation behind its one-entry cache; that cache, keyed by the module, is not modelled *)
Definition mps_available (t : option torch) : bool :=
  match t with
  | None => false
  | Some t => match t_mps t with
              | None => false
              | Some m =>
                match m_built m with Some (Ok false) | Some (Err _) => false | _ =>
                  match m_available m with
                  | Some (Says true) => match m_zeros m with Ok _ => true | Err _ => false end
                  | _ => false
                  end
                end
              end
  end.
(* _best_device_from_torch (device.py lines 40-50) *)
Definition best_device (t : option torch) : result string :=
  match t with
  | None => Ok "cpu"
  | Some t' =>
    match t_cuda t' with
    | Some (Raises e) => Err e
    | Some (Says true) => Ok "cuda"
    | _ => Ok (if mps_available t then "mps" else "cpu")
    end
  end.
(* resolve_device_name (device.py lines 67-74) with the cache of _cached_best_device_name (lines 62-64); given: a torch handed over; found: the one an import finds now *)
Definition resolve_device (device : option string) (given : option (option torch)) (found : option torch) (cache : option string) : result (option string) * option string :=
  match device with
  | None => (Ok None, cache)
  | Some d =>
    if negb (String.eqb d "auto") then (Ok (Some d), cache) else
    match given with
    | Some t => (do n <- best_device t; Ok (Some n), cache)
    | None => match cache with
              | Some n => (Ok (Some n), cache)
              | None => match best_device found with Ok n => (Ok (Some n), Some n) | Err e => (Err e, None) end
              end
    end
  end.
