(* Model of src/modssc/preprocess/steps/audio/load_waveform.py.  Samples are rationals for float32; an array of channels is
   its number of samples per channel with one row per channel.  torchaudio.load, torchaudio.functional.resample and
   scipy.io.wavfile.read are parameters; the logging of the fallback is left out. *)
From Coq Require Import QArith String.
From Verif Require Import Prelude QFacts.
Local Open Scope string_scope.
Local Open Scope Z_scope.
Local Open Scope list_scope.
Local Notation length := List.length.

Definition channels := (nat * list (list Q))%type.      (* (C, T): samples per channel, channels *)
(* to_numpy(item) by its rank (load_waveform.py lines 26-35) *)
Inductive nd := Scalar (q : Q) | Vec (w : list Q) | Mat (m : channels) | Higher.
(* str, Path, bytes and bytearray (load_waveform.py lines 22-23) *)
Inductive path := PStr (s : string) | PBytes (s : string).
Inductive item := PathItem (p : path) | ArrayItem (a : nd).
(* raw.X: numeric arrays by rank, lists, tuples and arrays of objects, anything else (load_waveform.py lines 130-140) *)
Inductive input := Num0 (q : Q) | Num1 (v : list Q) | Num2 (rows : list (list Q)) | Num3 (l : list channels) | Items (l : list item) | Single (i : item).

(* what torchaudio.load does with a name; the error of a missing codec is told apart by its message (load_waveform.py lines 74-77) *)
Inductive loaded := LOk (m : channels) (rate : Z) | LCodec | LErr (e : exn).
(* scipy.io.wavfile.read: the type of the samples and the frames, (T,) or (T, C) (load_waveform.py lines 101-112) *)
Inductive wav_type := I16 | I32 | U8 | OtherType.
Inductive frames := Mono (l : list Q) | Multi (c : nat) (l : list (list Q)).
Record wav := { wv_rate : Z; wv_type : wav_type; wv_frames : frames }.

Record wave_spec := { ws_rate : option Z; ws_max : option Z; ws_pad : Q; ws_mono : bool; ws_trim : string; ws_fallback : bool }.

(* wave.mean(axis=0) (load_waveform.py lines 30-34); the mean of no channel at all is nan in numpy and 0 here *)
Definition channel_mean (m : channels) : list Q := map (fun t => (Qsum (map (fun ch => nth t ch 0%Q) (snd m)) / inject_Z (Z.of_nat (length (snd m))))%Q) (seq 0 (fst m)).
(* _as_numpy_waveform (load_waveform.py lines 26-35) *)
Definition as_wave (mono : bool) (a : nd) : result (list Q) :=
  match a with
  | Vec w => Ok w
  | Mat m => if mono then Ok (channel_mean m) else Ok (channel_mean m)
  | _ => Err PreprocessError
  end.
(* _trim_waveform (load_waveform.py lines 38-47) *)
Definition trim_wave (w : list Q) (max : nat) (trim : string) : list Q :=
  let len := length w in
  if Nat.leb len max then w
  else if String.eqb trim "center" then firstn max (skipn (Nat.div (len - max) 2) w)
  else if String.eqb trim "end" then skipn (len - max) w
  else firstn max w.
(* _pad_waveform (load_waveform.py lines 50-56) *)
Definition pad_wave (w : list Q) (max : nat) (v : Q) : list Q := if Nat.leb max (length w) then w else w ++ repeat v (max - length w).
(* str(path): for bytes this is the literal, quotes included (load_waveform.py lines 75 and 102; bytes that need escapes are left out) *)
Definition name_of (p : path) : string := match p with PStr s => s | PBytes s => ("b'" ++ s ++ "'")%string end.
(* the samples of a wav file as numbers around [-1, 1] (load_waveform.py lines 103-110) *)
Definition scaled (t : wav_type) (x : Q) : Q :=
  match t with
  | I16 => (x / inject_Z 32768)%Q
  | I32 => (x / inject_Z 2147483648)%Q
  | U8 => ((x - inject_Z 128) / inject_Z 128)%Q
  | OtherType => x
  end.
(* data[None, :] or data.T (load_waveform.py line 112) *)
Definition wav_channels (w : wav) : channels :=
  match wv_frames w with
  | Mono l => (length l, [map (scaled (wv_type w)) l])
  | Multi c l => (length l, map (fun j => map (fun f => scaled (wv_type w) (nth j f 0%Q)) l) (seq 0 c))
  end.

Section Loading.
Variable load : string -> loaded.
Variable wav_read : string -> option wav.
Variable resample : channels -> Z -> Z -> result channels.

(* _load_path (load_waveform.py lines 70-125) *)
Definition load_path (sp : wave_spec) (p : path) : result (list Q * Z) :=
  do ' (m, rate) <- match load (name_of p) with
                    | LOk m rate => Ok (m, rate)
                    | LErr e => Err e
                    | LCodec =>
                      if negb (ws_fallback sp) then Err PreprocessError
                      else match wav_read (name_of p) with
                           | None => Err RuntimeError
                           | Some w => Ok (wav_channels w, wv_rate w)
                           end
                    end;
  do ' (m, rate) <- match ws_rate sp with
                    | None => Ok (m, rate)
                    | Some r => if rate =? r then Ok (m, rate) else do m <- resample m rate r; Ok (m, r)
                    end;
  do w <- as_wave (ws_mono sp) (Mat m);
  Ok (w, rate).
(* one item of the loop (load_waveform.py lines 144-152): the wave and its sample rate, if known *)
Definition load_item (sp : wave_spec) (i : item) : result (list Q * option Z) :=
  match i with
  | PathItem p => do ' (w, r) <- load_path sp p; Ok (w, Some r)
  | ArrayItem a => do w <- as_wave (ws_mono sp) a; Ok (w, None)
  end.
Fixpoint load_items (sp : wave_spec) (l : list item) : result (list (list Q * option Z)) :=
  match l with
  | [] => Ok []
  | i :: l => do x <- load_item sp i; do xs <- load_items sp l; Ok (x :: xs)
  end.
(* load_waveform.py lines 130-152 *)
Definition waves_of (sp : wave_spec) (X : input) : result (list (list Q * option Z)) :=
  match X with
  | Num2 rows => Ok (map (fun r => (r, None)) rows)
  | Num0 q => load_items sp [ArrayItem (Scalar q)]
  | Num1 v => load_items sp (map (fun q => ArrayItem (Scalar q)) v)
  | Num3 l => load_items sp (map (fun m => ArrayItem (Mat m)) l)
  | Items l => load_items sp l
  | Single i => load_items sp [i]
  end.
(* transform (load_waveform.py lines 127-184): the rows of features.X *)
Definition transform (sp : wave_spec) (X : input) : result (list (list Q)) :=
  do ws <- waves_of sp X;
  match ws with
  | [] => Ok []
  | w0 :: _ =>
    if negb (existsb (String.eqb (ws_trim sp)) ["start"; "center"; "end"]) then Err PreprocessError
    else
      do rows <- match ws_max sp with
                 | Some max =>
                   if max <=? 0 then Err PreprocessError
                   else Ok (map (fun w => pad_wave (trim_wave (fst w) (Z.to_nat max) (ws_trim sp)) (Z.to_nat max) (ws_pad sp)) ws)
                 | None =>
                   if existsb (fun w => negb (Nat.eqb (length (fst w)) (length (fst w0)))) ws then Err PreprocessError
                   else Ok (map fst ws)
                 end;
      match ws_rate sp with
      | Some _ => if existsb (fun w => match snd w with None => true | _ => false end) ws then Err PreprocessError else Ok rows
      | None => Ok rows
      end
  end.
End Loading.
