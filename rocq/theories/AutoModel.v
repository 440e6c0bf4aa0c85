(* Model of the stub encoder (src/modssc/preprocess/models_backends/stub.py) and of the embeddings.auto step
   (src/modssc/preprocess/steps/embeddings/auto.py).  Text is ASCII, paths are POSIX paths; SHA-256 with the generator it seeds, the real encoders, their loading,
   the conversion of sequences to arrays and the cast to float32 are parameters. *)
From Coq Require Import String Ascii QArith DecimalString DecimalNat.
From Verif Require Import Prelude PyValue OmlModel TaudModel.
Local Open Scope string_scope.
Local Open Scope Z_scope.
Local Open Scope list_scope.
Local Notation length := List.length.

(* ---- the stub encoder *)
(* a sample: bytes, a string (as its UTF-8 bytes) or something that becomes an array (shape and dtype as text, and its bytes) *)
Inductive sample := SBytes (b : text) | SStr (b : text) | SArr (shape dtype data : text).
(* _sample_bytes (stub.py lines 12-21) *)
Definition sample_bytes (s : sample) : text :=
  match s with SBytes b => b | SStr b => b | SArr shape dtype data => shape ++ txt "|" ++ dtype ++ txt "|" ++ firstn 1024 data end.
(* f"{i}" (stub.py line 43) *)
Definition decimal (i : nat) : text := txt (NilEmpty.string_of_uint (Nat.to_uint i)).
Section Stub.
Variable draw : text -> nat -> list Q.       (* the numbers drawn from the generator seeded with the hash of a text *)
Fixpoint encode_from (dim i : nat) (l : list sample) : list (list Q) :=
  match l with [] => [] | s :: r => draw (sample_bytes s ++ txt "|" ++ decimal i) dim :: encode_from dim (S i) r end.
(* StubEncoder.encode (stub.py lines 30-47) of the samples of X *)
Definition stub_encode (dim : nat) (l : list sample) : list (list Q) := encode_from dim 0 l.
End Stub.

(* ---- the step *)
(* _AUDIO_EXTS (auto.py line 14) *)
Definition audio_exts : list string := [".wav"; ".flac"; ".mp3"; ".ogg"; ".m4a"; ".aac"].
(* str.lower of ASCII text *)
Definition low (c : ascii) : ascii := let n := nat_of_ascii c in if ((65 <=? n) && (n <=? 90))%nat then ascii_of_nat (n + 32) else c.
(* p.suffix of a name (auto.py line 30) *)
Definition suffix (n : text) : text :=
  match last_dot n with Some i => if (0 <? i)%nat && (i <? length n - 1)%nat then skipn i n else [] | None => [] end.
(* an element: a string, bytes, a path (as its text), a list, tuple or array (the number of dimensions of the array it becomes, or the failure), another thing *)
Inductive item := IText (s : text) | IBytes (b : text) | IPath (s : text) | ISeq (dims : result nat) | IOther.
Inductive dtype := DStrings | DBytes | DNumber | DObject.

Section Step.
Variable V : Type.                           (* the values of arrays *)
Record array := { a_shape : list nat; a_kind : dtype; a_items : list item; a_vals : list V }.
(* raw.X: a list or tuple and the array it becomes, an array, or another thing and the array it becomes *)
Inductive input := InSeq (l : list item) (conv : result array) | InArr (a : array) | InElse (conv : result array).
Variable show_bytes : text -> text.          (* str of bytes *)
Variable as_float : dtype -> V -> result Q.  (* the cast of a value to float32 *)

(* _first_item (auto.py lines 17-24); flat[0] of an array *)
Definition first_item (X : input) : option item :=
  match X with InArr a => hd_error (a_items a) | InSeq l _ => hd_error l | InElse _ => None end.
(* _is_audio_path (auto.py lines 27-34) *)
Definition is_audio_path (i : item) : bool :=
  let named s := existsb (String.eqb (str (map low (suffix (name_of (to_path s)))))) audio_exts in
  match i with IText s | IPath s => named s | IBytes b => named (show_bytes b) | _ => false end.
(* _looks_like_text (auto.py lines 37-45) *)
Definition looks_like_text (X : input) : bool :=
  match first_item X with
  | Some (IText s) => negb (is_audio_path (IText s))
  | _ => match X with
         | InArr a => match a_kind a with
                      | DStrings | DBytes => match a_items a with [] => false | i :: _ => negb (is_audio_path i) end
                      | _ => false
                      end
         | _ => false
         end
  end.
(* _looks_like_images (auto.py lines 48-49) *)
Definition looks_like_images (X : input) : bool :=
  match X with InArr a => Nat.eqb (length (a_shape a)) 3 || Nat.eqb (length (a_shape a)) 4 | _ => false end.
(* _looks_like_audio (auto.py lines 52-59) *)
Definition looks_like_audio (X : input) : result bool :=
  match first_item X with
  | None => Ok false
  | Some i => if is_audio_path i then Ok true else match i with ISeq d => do n <- d; Ok (Nat.eqb n 1 || Nat.eqb n 2) | _ => Ok false end
  end.
(* to_numpy(X) (auto.py line 112): an empty sequence becomes an array of no numbers *)
Definition to_array (X : input) : result array :=
  match X with InSeq [] _ => Ok {| a_shape := [0%nat]; a_kind := DNumber; a_items := []; a_vals := [] |} | InSeq _ c => c | InArr a => Ok a | InElse c => c end.
Fixpoint cast (k : dtype) (l : list V) : result (list Q) := match l with [] => Ok [] | v :: r => do q <- as_float k v; do qs <- cast k r; Ok (q :: qs) end.
(* a table: rows, columns and its values row by row *)
Record table := { t_rows : nat; t_cols : nat; t_vals : list Q }.
(* the numeric fallback (auto.py lines 111-121); reshape(0, -1) fails *)
Definition numeric (X : input) : result table :=
  do a <- to_array X;
  do s <- match a_shape a with
          | [] => Err PreprocessError
          | [n] => Ok (n, 1%nat)
          | [n; m] => Ok (n, m)
          | n :: r => if Nat.eqb n 0 then Err ValueError else Ok (n, fold_right Nat.mul 1%nat r)
          end;
  match a_kind a with
  | DObject => Err PreprocessError
  | k => do v <- cast k (a_vals a); Ok {| t_rows := fst s; t_cols := snd s; t_vals := v |}
  end.

Inductive kind := KText | KVision | KAudio.
Definition kind_eqb (a b : kind) : bool := match a, b with KText, KText | KVision, KVision | KAudio, KAudio => true | _, _ => false end.
Variables Enc R : Type.
Variable load : list kind -> kind -> result Enc.             (* load_encoder, after the loads made so far *)
Variable encode : Enc -> input -> Z -> R -> result table * R. (* encoder.encode with the batch size and the generator *)
(* the step: its encoders (auto.py lines 74-76) and the loads made so far *)
Record step := { st_enc : kind -> option Enc; st_loads : list kind }.
Definition fresh : step := {| st_enc := fun _ => None; st_loads := [] |}.
(* _get_encoder (auto.py lines 78-91) *)
Definition get_encoder (st : step) (k : kind) : result Enc * step :=
  match st_enc st k with
  | Some e => (Ok e, st)
  | None => match load (st_loads st) k with
            | Ok e => (Ok e, {| st_enc := fun k' => if kind_eqb k' k then Some e else st_enc st k'; st_loads := st_loads st ++ [k] |})
            | Err x => (Err x, {| st_enc := st_enc st; st_loads := st_loads st ++ [k] |})
            end
  end.
(* the encoder transform uses, if any (auto.py lines 96-109) *)
Definition choose (X : input) : result (option kind) :=
  if looks_like_text X then Ok (Some KText)
  else if looks_like_images X then Ok (Some KVision)
  else do b <- looks_like_audio X; Ok (if b then Some KAudio else None).
(* AutoEmbeddingStep.transform (auto.py lines 93-121) *)
Definition transform (batch : Z) (st : step) (X : option input) (r : R) : result table * R * step :=
  match X with
  | None => (Err KeyError, r, st)
  | Some X =>
    match choose X with
    | Err x => (Err x, r, st)
    | Ok None => (numeric X, r, st)
    | Ok (Some k) => match get_encoder st k with
                     | (Err x, st) => (Err x, r, st)
                     | (Ok e, st) => let '(t, r) := encode e X batch r in (t, r, st)
                     end
    end
  end.
(* the step used again and again *)
Fixpoint run (batch : Z) (st : step) (Xs : list (option input)) (r : R) : list (result table) * R * step :=
  match Xs with [] => ([], r, st) | X :: l => let '(t, r, st) := transform batch st X r in let '(ts, r, st) := run batch st l r in (t :: ts, r, st) end.
End Step.
