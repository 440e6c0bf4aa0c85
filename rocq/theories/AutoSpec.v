(* Vocabulary for C162 and C163: stub embeddings and the choice of an encoder. *)
From Coq Require Import String Ascii QArith.
From Verif Require Import Prelude OmlModel TaudSpec AutoModel.
Local Open Scope string_scope.
Local Open Scope list_scope.
Local Notation length := List.length.

(* what the stub encoder sees of a sample: text as it is; of an array its shape, its type and its first 1024 bytes *)
Definition seen (s : sample) (t : text) : Prop :=
  match s with
  | SBytes b | SStr b => t = b
  | SArr shape dtype data => exists front back, data = front ++ back /\ (length front = 1024%nat \/ (length front < 1024)%nat /\ back = []) /\ t = shape ++ txt "|" ++ dtype ++ txt "|" ++ front
  end.

(* the name of the file a text names: the last of its parts between slashes that is neither empty nor a dot *)
Definition file_name (s n : text) : Prop :=
  exists before after, s = slashes (before ++ n :: after) /\ (forall t, In t (before ++ n :: after) -> ~ In "/"%char t) /\ part n /\ (forall t, In t after -> t = [] \/ t = txt ".").
Definition small_or_capital (w a : ascii) : Prop := a = w \/ (65 <= nat_of_ascii a <= 90 /\ nat_of_ascii w = nat_of_ascii a + 32)%nat.
(* it has one of the endings of audio files, in whatever case *)
Definition audio_name (s : text) : Prop :=
  exists n stem ext w, file_name s n /\ n = stem ++ txt "." ++ ext /\ stem <> [] /\ In w ["wav"; "flac"; "mp3"; "ogg"; "m4a"; "aac"] /\ Forall2 small_or_capital (txt w) ext.

Section Input.
Context {V : Type}.
Definition first (X : input V) (i : item) : Prop :=
  match X with InSeq _ l _ => exists r, l = i :: r | InArr _ a => exists r, a_items V a = i :: r | InElse _ _ => False end.
(* the values of an array are those its type says, and a sequence inside raw.X can be converted *)
Definition sound (X : input V) : Prop :=
  (forall a i, X = InArr V a -> In i (a_items V a) -> match a_kind V a with DStrings => exists s, i = IText s | DBytes => exists b, i = IBytes b | DNumber => i = IOther | DObject => True end) /\
  (forall x, ~ first X (ISeq (Err x))).
Definition says_text (X : input V) : Prop :=
  (exists s, first X (IText s) /\ ~ audio_name s) \/ (exists a b, X = InArr V a /\ a_kind V a = DBytes /\ first X (IBytes b)).
Definition pictures (X : input V) : Prop := exists a, X = InArr V a /\ (length (a_shape V a) = 3 \/ length (a_shape V a) = 4)%nat.
Definition says_audio (X : input V) : Prop :=
  (exists s, (first X (IText s) \/ first X (IPath s)) /\ audio_name s) \/ first X (ISeq (Ok 1%nat)) \/ first X (ISeq (Ok 2%nat)).
(* the encoder a data set goes to; None: it is taken as numbers *)
Inductive goes (X : input V) : option kind -> Prop :=
| goes_text : says_text X -> goes X (Some KText)
| goes_vision : ~ says_text X -> pictures X -> goes X (Some KVision)
| goes_audio : ~ says_text X -> ~ pictures X -> says_audio X -> goes X (Some KAudio)
| goes_numbers : ~ says_text X -> ~ pictures X -> ~ says_audio X -> goes X None.
(* the array a data set becomes *)
Definition becomes (X : input V) (a : array V) : Prop :=
  match X with InArr _ b => a = b | InElse _ c => c = Ok a
  | InSeq _ l c => (l = [] -> a = {| a_shape := [0%nat]; a_kind := DNumber; a_items := []; a_vals := [] |}) /\ (l <> [] -> c = Ok a) end.
(* a table with one row per element of the first dimension, the others in order along the row *)
Definition flattened (as_float : dtype -> V -> result Q) (a : array V) (t : table) : Prop :=
  exists n rest, a_shape V a = n :: rest /\ t_rows t = n /\ t_cols t = fold_right Nat.mul 1%nat rest /\
    Forall2 (fun v q => as_float (a_kind V a) v = Ok q) (a_vals V a) (t_vals t).
End Input.
(* str of bytes ends with a quote, of a bytearray with a parenthesis *)
Definition quoted (show_bytes : text -> text) : Prop := forall b, exists a q, show_bytes b = a ++ [q] /\ In q ["'"%char; """"%char; ")"%char].
