(* Model of the data sets of the torchaudio provider (src/modssc/data_loader/providers/torchaudio.py).  Paths are POSIX paths of
   ASCII text; the class filter and the limits are ProvModel.v. *)
From Coq Require Import String Ascii.
From Verif Require Import Prelude PyValue OmlModel.
Local Open Scope string_scope.
Local Open Scope list_scope.
Local Notation length := List.length.

(* a pathlib path: absolute or not, and its parts *)
Record path := { p_abs : bool; p_parts : list text }.
(* Path(str(x)) (torchaudio.py lines 136 and 139): empty parts and "." go *)
Definition to_path (s : text) : path :=
  {| p_abs := match s with c :: _ => Ascii.eqb c "/" | [] => false end;
     p_parts := filter (fun t => negb (Nat.eqb (length t) 0 || String.eqb (str t) ".")) (split_on "/" s) |}.
Fixpoint slashed (l : list text) : text := match l with [] => [] | [t] => t | t :: r => t ++ "/"%char :: slashed r end.
(* str(path) (torchaudio.py line 182) *)
Definition show_path (p : path) : text :=
  if p_abs p then "/"%char :: slashed (p_parts p) else match p_parts p with [] => txt "." | l => slashed l end.
(* base / p of a relative p (torchaudio.py line 141) *)
Definition join_path (b p : path) : path := {| p_abs := p_abs b; p_parts := p_parts b ++ p_parts p |}.
(* p.name and p.parent.name *)
Definition name_of (p : path) : text := last (p_parts p) [].
Definition parent_name (p : path) : text := last (removelast (p_parts p)) [].
(* where the suffix of a name begins: the last dot that is neither its first nor its last character *)
Fixpoint last_dot (s : text) : option nat :=
  match s with [] => None | c :: r => match last_dot r with Some i => Some (S i) | None => if Ascii.eqb c "." then Some 0%nat else None end end.
(* p.stem of a name *)
Definition stem (n : text) : text :=
  match last_dot n with Some i => if (0 <? i)%nat && (i <? length n - 1)%nat then firstn i n else n | None => n end.
(* p.with_suffix(s) of a path (torchaudio.py lines 145-148): a path without a name is refused *)
Definition with_suffix (p : path) (s : string) : result path :=
  match name_of p with [] => Err ValueError | n => Ok {| p_abs := p_abs p; p_parts := removelast (p_parts p) ++ [stem n ++ txt s] |} end.

Section Provider.
(* p.exists() *)
Variable exists_ : path -> bool.
(* an entry of the walker (torchaudio.py lines 138-150) *)
Definition entry_path (base : path) (e : text) : result path :=
  let p := to_path e in
  let p := if p_abs p then p else join_path base p in
  if exists_ p then Ok p
  else do w <- with_suffix p ".wav";
       if exists_ w then Ok w else do f <- with_suffix p ".flac"; if exists_ f then Ok f else Ok p.
Fixpoint entry_paths (base : path) (l : list text) : result (list path) :=
  match l with [] => Ok [] | e :: r => do p <- entry_path base e; do ps <- entry_paths base r; Ok (p :: ps) end.

(* what the provider looks at in a torchaudio data set *)
Context {wave label : Type}.
Record sample := { s_len : nat; s_wave : wave; s_label : label }.
Record dataset := { d_path : option text; d_walker : option (list text); d_items : list sample }.
(* _paths_from_walker (torchaudio.py lines 131-151) *)
Definition paths_from_walker (d : dataset) : result (option (list path)) :=
  match d_path d, d_walker d with Some b, Some w => do l <- entry_paths (to_path b) w; Ok (Some l) | _, _ => Ok None end.
(* str.upper of ASCII text *)
Definition up (c : ascii) : ascii := let n := nat_of_ascii c in if ((97 <=? n) && (n <=? 122))%nat then ascii_of_nat (n - 32) else c.
(* _labels_from_paths (torchaudio.py lines 154-164), one path *)
Definition label_from_path (cls : text) (p : path) : text :=
  let c := str (map up (strip cls)) in
  if String.eqb c "SPEECHCOMMANDS" then parent_name p
  else if String.eqb c "YESNO" then match stem (name_of p) with a :: _ => if Ascii.eqb a "1" then txt "yes" else txt "no" | [] => txt "no" end
  else parent_name p.
(* the two kinds of columns: paths with text labels, or waveforms with the labels of the samples *)
Inductive columns := Paths (x : list text) (y : list text) | Waves (x : list wave) (y : list label).
Fixpoint collect (l : list sample) : result (list wave * list label) :=
  match l with
  | [] => Ok ([], [])
  | s :: r => if Nat.ltb (s_len s) 3 then Err ValueError else do ' (x, y) <- collect r; Ok (s_wave s :: x, s_label s :: y)
  end.
(* _extract_xy (torchaudio.py lines 174-198) *)
Definition extract_xy (d : dataset) (cls : text) : result columns :=
  do ps <- paths_from_walker d;
  match ps with
  | Some (p :: r) => Ok (Paths (map show_path (p :: r)) (map (label_from_path cls) (p :: r)))
  | _ => do ' (x, y) <- collect (d_items d); Ok (Waves x y)
  end.
(* _official_or_single (torchaudio.py lines 120-128); build: the class of the data set, called with a subset or without *)
Definition official_or_single (build : option string -> result dataset) : result (dataset * option dataset) :=
  match (do a <- build (Some "training"); do b <- build (Some "testing"); Ok (a, Some b)) with
  | Err TypeError => do d <- build None; Ok (d, None)
  | r => r
  end.
(* load_canonical up to the limits (torchaudio.py lines 86-102) *)
Definition load (build : option string -> result dataset) (cls : text) : result (columns * option columns) :=
  do ' (tr, te) <- official_or_single build;
  do a <- extract_xy tr cls;
  match te with None => Ok (a, None) | Some t => do b <- extract_xy t cls; Ok (a, Some b) end.
End Provider.
