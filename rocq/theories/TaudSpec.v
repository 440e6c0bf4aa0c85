(* Vocabulary for C160: paths, files and labels of torchaudio data sets. *)
From Coq Require Import String Ascii.
From Verif Require Import Prelude OmlModel OmlSpec.
Local Open Scope string_scope.
Local Open Scope list_scope.
Local Notation length := List.length.

(* a part of a path: some text without a slash, other than "." *)
Definition part (t : text) : Prop := t <> [] /\ t <> txt "." /\ ~ In "/"%char t.
Fixpoint slashes (l : list text) : text := match l with [] => [] | [t] => t | t :: r => t ++ txt "/" ++ slashes r end.
(* s spells the path with those parts (from the root if abs) *)
Definition spells (abs : bool) (l : list text) (s : text) : Prop := (forall t, In t l -> part t) /\ l <> [] /\ s = (if abs then txt "/" else []) ++ slashes l.
(* the file a name without an ending stands for: itself, else with .wav, else with .flac, else itself again *)
Definition stands_for (there : list text -> bool) (dir : list text) (name file : text) : Prop :=
  (there (dir ++ [name]) = true -> file = name) /\
  (there (dir ++ [name]) = false -> there (dir ++ [name ++ txt ".wav"]) = true -> file = name ++ txt ".wav") /\
  (there (dir ++ [name]) = false -> there (dir ++ [name ++ txt ".wav"]) = false -> there (dir ++ [name ++ txt ".flac"]) = true -> file = name ++ txt ".flac") /\
  (there (dir ++ [name]) = false -> there (dir ++ [name ++ txt ".wav"]) = false -> there (dir ++ [name ++ txt ".flac"]) = false -> file = name).
(* cls is the word w of capital letters, in whatever case and with white space around it *)
Definition letter_of (d a : ascii) : Prop := a = d \/ nat_of_ascii a = (nat_of_ascii d + 32)%nat.
Definition says (cls : text) (w : string) : Prop := exists b c b', blank b /\ blank b' /\ cls = b ++ c ++ b' /\ Forall2 letter_of (txt w) c.
(* the label: yes/no by the first character for YESNO, else the directory *)
Definition label_is (cls : text) (dir : list text) (name label : text) : Prop :=
  (says cls "YESNO" -> ((exists r, name = "1"%char :: r) -> label = txt "yes") /\ ((~ exists r, name = "1"%char :: r) -> label = txt "no")) /\
  (~ says cls "YESNO" -> forall d r, dir = r ++ [d] -> label = d).
(* an entry of a data set whose directory has those parts refers to a name in a directory, both from the root or not *)
Definition refers (ab : bool) (lb : list text) (s : text) (f : bool * list text * text) : Prop :=
  exists abs l, spells abs l s /\ fst (fst f) = (if abs then true else ab) /\ snd (fst f) ++ [snd f] = (if abs then l else lb ++ l).
