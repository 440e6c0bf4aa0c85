(* The benchmark runner's configuration loading (environment placeholders), its check for "auto" values and
   its choice of a run directory. *)
From Coq Require Import String Ascii.
From Verif Require Import Prelude FloatModel PyValue DecString LimitsModel.
Local Open Scope string_scope.
Local Open Scope Z_scope.
Local Open Scope list_scope.
Local Notation length := List.length.

(* ------------------------------------------------------------------ environment placeholders
   A text is a list of characters.  Characters outside ASCII are left to their UTF-8 bytes: none of the
   character classes of the pattern contains one. *)
Definition text := list ascii.

Definition is_upper (c : ascii) : bool := let n := nat_of_ascii c in Nat.leb 65 n && Nat.leb n 90.
Definition is_lower (c : ascii) : bool := let n := nat_of_ascii c in Nat.leb 97 n && Nat.leb n 122.
Definition is_num (c : ascii) : bool := let n := nat_of_ascii c in Nat.leb 48 n && Nat.leb n 57.
(* [A-Za-z_] and [A-Za-z0-9_] (bench/utils/io.py 14-16) *)
Definition name_start (c : ascii) : bool := is_upper c || is_lower c || Ascii.eqb c "_".
Definition name_char (c : ascii) : bool := name_start c || is_num c.

(* the longest run of name characters, and what follows *)
Fixpoint span_name (s : text) : text * text :=
  match s with
  | [] => ([], [])
  | c :: r => if name_char c then let '(a, b) := span_name r in (c :: a, b) else ([], s)
  end.

(* the pattern after its dollar (io.py 15): "{" name "}" or name; the answer is whether braces were used, the
   name, and the text after the match *)
Definition match_name (s : text) : option (bool * text * text) :=
  match s with
  | [] => None
  | c :: r =>
      if Ascii.eqb c "{" then
        match r with
        | c' :: _ =>
            if name_start c' then
              let '(n, rest) := span_name r in
              match rest with
              | e :: rest' => if Ascii.eqb e "}" then Some (true, n, rest') else None
              | [] => None
              end
            else None
        | [] => None
        end
      else if name_start c then let '(n, rest) := span_name s in Some (false, n, rest) else None
  end.

Inductive token := Lit (c : ascii) | Var (braces : bool) (name : text).

(* _PLACEHOLDER_RE.finditer / .sub: scan from the left; the look-behind (?<![$\\]) asks that the character
   before the dollar be neither a dollar nor a backslash (blocked) *)
Definition escapes (c : ascii) : bool := Ascii.eqb c "$" || Ascii.eqb c "\".
Fixpoint tokens (fuel : nat) (blocked : bool) (s : text) : list token :=
  match fuel with
  | O => []
  | S k =>
      match s with
      | [] => []
      | c :: r =>
          match (if Ascii.eqb c "$" && negb blocked then match_name r else None) with
          | Some (br, n, rest) => Var br n :: tokens k false rest
          | None => Lit c :: tokens k (escapes c) r
          end
      end
  end.

(* _resolve_env_var (io.py 70-73): the environment, else the defaults *)
Definition resolve_var (env defaults : text -> option text) (n : text) : option text :=
  match env n with Some v => Some v | None => defaults n end.

(* _expand_env_vars on a string (io.py 108-122) and _expand_placeholders (76-84) *)
Definition expand_text (env defaults : text -> option text) (s : text) : result text :=
  let ts := tokens (length s) false s in
  if existsb (fun t => match t with Lit _ => false
                                  | Var _ n => match resolve_var env defaults n with None => true | Some _ => false end end) ts
  then Err ValueError
  else Ok (flat_map (fun t => match t with
                              | Lit c => [c]
                              | Var br n => match resolve_var env defaults n with
                                            | Some v => v
                                            | None => (* match.group(0) *)
                                                if br then ("$" :: "{" :: n ++ ["}"])%char else ("$" :: n)%char
                                            end
                              end) ts).

(* _expand_env_vars (io.py 87-123); YAML yields no tuples *)
Fixpoint expand_value (env defaults : text -> option text) (v : pyval) : result pyval :=
  match v with
  | PDict d =>
      (fix go (d : list (string * pyval)) : result pyval :=
         match d with
         | [] => Ok (PDict [])
         | (k, w) :: r =>
             do w' <- expand_value env defaults w;
             do r' <- go r;
             Ok (match r' with PDict x => PDict ((k, w') :: x) | u => u end)
         end) d
  | PList l =>
      (fix go (l : list pyval) : result pyval :=
         match l with
         | [] => Ok (PList [])
         | w :: r =>
             do w' <- expand_value env defaults w;
             do r' <- go r;
             Ok (match r' with PList x => PList (w' :: x) | u => u end)
         end) l
  | PStr s => do t <- expand_text env defaults (list_ascii_of_string s); Ok (PStr (string_of_list_ascii t))
  | u => Ok u
  end.

(* load_yaml (io.py 126-134) after the file has been parsed: None stands for an empty file, only a mapping is
   accepted *)
Definition load_config (env defaults : text -> option text) (data : pyval) : result pyval :=
  match data with
  | PNone => Ok (PDict [])
  | PDict _ => expand_value env defaults data
  | _ => Err ValueError
  end.

(* ------------------------------------------------------------------ "auto" values
   value.strip().lower() == "auto" (bench/main.py 331-332).  ASCII white space and letters only: the other
   characters Python strips are outside the model. *)
Definition is_space (c : ascii) : bool :=
  let n := nat_of_ascii c in (Nat.leb 9 n && Nat.leb n 13) || (Nat.leb 28 n && Nat.leb n 32).
Definition lower (c : ascii) : ascii := if is_upper c then ascii_of_nat (nat_of_ascii c + 32) else c.
Fixpoint lstrip (s : text) : text := match s with c :: r => if is_space c then lstrip r else s | [] => [] end.
Definition strip (s : text) : text := rev (lstrip (rev (lstrip s))).
Definition says_auto (s : string) : bool :=
  if list_eq_dec ascii_dec (map lower (strip (list_ascii_of_string s))) (list_ascii_of_string "auto") then true else false.
Definition auto_key (k : string) : bool := memS k ["device"; "backend"; "classifier_backend"; "profile"].

(* _scan_auto_entries (main.py 324-346), with the places themselves instead of their printed form *)
Fixpoint scan_auto (v : pyval) (at_ : place) : list place :=
  match v with
  | PDict d =>
      (fix go (d : list (string * pyval)) : list place :=
         match d with
         | [] => []
         | (k, w) :: r =>
             (match w with PStr s => if says_auto s && auto_key k then [at_ ++ [K k]] else [] | _ => [] end)
               ++ scan_auto w (at_ ++ [K k]) ++ go r
         end) d
  | PList l =>
      (fix go (i : nat) (l : list pyval) : list place :=
         match l with
         | [] => []
         | w :: r => scan_auto w (at_ ++ [I i]) ++ go (S i) r
         end) 0%nat l
  | _ => []
  end.
(* the check of _benchmark_contract_preflight (main.py 465-470) *)
Definition refuse_auto (raw : pyval) : result unit :=
  match scan_auto raw [] with [] => Ok tt | _ => Err BenchError end.

(* ------------------------------------------------------------------ run directories
   Names are names inside one output directory. *)

(* f"{suffix:02d}" *)
Definition two_digits (n : Z) : string := if n <? 10 then ("0" ++ dec n)%string else dec n.
(* candidate.name, then f"{candidate.name}__r{suffix:02d}" (bench/context.py 12-24) *)
Definition candidate (base : string) (k : nat) : string :=
  match k with O => base | S _ => (base ++ "__r" ++ two_digits (Z.of_nat k))%string end.
(* the search, with fuel; names that do not exist are returned unread *)
Fixpoint next_available (fuel : nat) (exists_ : string -> bool) (base : string) (k : nat) : result string :=
  match fuel with
  | O => Err OutOfFuel
  | S f => if exists_ (candidate base k) then next_available f exists_ base (S k) else Ok (candidate base k)
  end.

(* ensure_dirs (context.py 66-69) of several processes on one output directory, then the first file written
   (write_config_copy, main.py 565-566) and, after a search, the change of name (_sync_ctx_run_identity,
   main.py 506-535).  Looking at one name, making one directory (mkdir with exist_ok=False) and renaming one
   directory are single steps of the operating system.  A rename onto an existing directory replaces it when it
   is empty and fails otherwise (POSIX rename). *)
Inductive pstate :=
| Looking (k : nat) | Decided (name : string) | Made (name : string) | Filled (name : string)
| Relooking (name : string) (k : nat) | Redecided (name new_name : string) | Moved (name : string)
| Failed (e : exn).
(* the directories with whether they hold a file, and the processes *)
Record world := { dirs : list (string * bool); procs : list pstate }.
Definition has_dir (ds : list (string * bool)) (n : string) : bool := existsb (fun x => String.eqb (fst x) n) ds.
Definition drop_dir (ds : list (string * bool)) (n : string) : list (string * bool) :=
  filter (fun x => negb (String.eqb (fst x) n)) ds.
Definition rename_dir (ds : list (string * bool)) (a b : string) : option (list (string * bool)) :=
  if existsb (fun x => String.eqb (fst x) b && snd x) ds then None
  else Some (map (fun x => if String.eqb (fst x) a then (b, snd x) else x) (drop_dir ds b)).

(* base: the wanted name; base2: the wanted name after a search, if there is one *)
Definition step_proc (base : string) (base2 : option string) (ds : list (string * bool)) (p : pstate) : list (string * bool) * pstate :=
  match p with
  | Looking k => if has_dir ds (candidate base k) then (ds, Looking (S k)) else (ds, Decided (candidate base k))
  | Decided n => if has_dir ds n then (ds, Failed FileExistsError) else ((n, false) :: ds, Made n)
  | Made n => (map (fun x => if String.eqb (fst x) n then (n, true) else x) ds, Filled n)
  | Filled n => match base2 with Some _ => (ds, Relooking n 0) | None => (ds, Filled n) end
  | Relooking n k =>
      match base2 with
      | Some b => if has_dir ds (candidate b k) then (ds, Relooking n (S k)) else (ds, Redecided n (candidate b k))
      | None => (ds, p)
      end
  | Redecided n m => match rename_dir ds n m with Some ds' => (ds', Moved m) | None => (ds, Failed RuntimeError) end
  | done => (ds, done)
  end.
(* process i takes its next step *)
Definition step (base : nat -> string) (base2 : nat -> option string) (w : world) (i : nat) : world :=
  match nth_error (procs w) i with
  | None => w
  | Some p => let '(ds, p') := step_proc (base i) (base2 i) (dirs w) p in {| dirs := ds; procs := update (procs w) i (fun _ => p') |}
  end.
Definition run (base : nat -> string) (base2 : nat -> option string) (w : world) (sched : list nat) : world :=
  fold_left (step base base2) sched w.
Definition start (existing : list (string * bool)) (n : nat) : world := {| dirs := existing; procs := repeat (Looking 0) n |}.

(* ------------------------------------------------------------------ seeds derived from the run's seed
   derive_seed (bench/utils/hashing.py 23-26): the first four bytes, big-endian, of a digest of "seed:label";
   seed_for (context.py 63-64) *)
Definition seed_payload (master : Z) (label : string) : string := (dec master ++ ":" ++ label)%string.
Definition be32 (h : list Z) : Z := fold_left (fun a b => a * 256 + b) (firstn 4 h) 0.
Definition derive_seed (sha : string -> list Z) (master : Z) (label : string) : Z := be32 (sha (seed_payload master label)).
Definition seed_for (sha : string -> list Z) (master : Z) (label : string) (override : option Z) : Z :=
  match override with Some s => s | None => derive_seed sha master label end.
(* the labels in use (main.py 671-923, orchestrators/hpo.py 106) *)
Definition trial_label (trial repeat_ : Z) : string := ("hpo-trial-" ++ dec trial ++ "-repeat-" ++ dec repeat_)%string.
