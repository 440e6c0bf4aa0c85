(* What C147 says: windows, padding, items and their waves. *)
From Coq Require Import QArith String.
From Verif Require Import Prelude QFacts WaveModel.
Local Open Scope list_scope.
Local Notation length := List.length.

(* a long wave keeps a window of [max] samples at the start, in the middle (rounded down) or at the end; a short one is
   followed by padding *)
Definition window (max : nat) (trim : string) (pad : Q) (w row : list Q) : Prop :=
  ((length w <= max)%nat -> row = w ++ repeat pad (max - length w)) /\
  ((max < length w)%nat -> exists before after, w = before ++ row ++ after /\ length row = max /\
     (trim = "start"%string -> before = []) /\ (trim = "end"%string -> after = []) /\ (trim = "center"%string -> length before = Nat.div (length w - max) 2)).
Definition trim_known (t : string) : Prop := t = "start"%string \/ t = "center"%string \/ t = "end"%string.
(* the items of raw.X *)
Definition items_of (X : input) : list item :=
  match X with
  | Num0 q => [ArrayItem (Scalar q)]
  | Num1 v => map (fun q => ArrayItem (Scalar q)) v
  | Num2 rows => map (fun r => ArrayItem (Vec r)) rows
  | Num3 l => map (fun m => ArrayItem (Mat m)) l
  | Items l => l
  | Single i => [i]
  end.
(* channels of the same length *)
Definition even (m : channels) : Prop := forall ch, In ch (snd m) -> length ch = fst m.
(* the mean of the channels, sample by sample *)
Definition averaged (m : channels) (w : list Q) : Prop := length w = fst m /\ forall t, (t < fst m)%nat -> (nth t w 0 * inject_Z (Z.of_nat (length (snd m))) == Qsum (map (fun ch => nth t ch 0) (snd m)))%Q.
(* the name a path is opened with *)
Definition opened (p : path) (s : string) : Prop := p = PStr s \/ exists b, p = PBytes b /\ s = ("b'" ++ b ++ "'")%string.
(* the file as torchaudio or, after a codec error and only when allowed, scipy reads it *)
Definition read (load : string -> loaded) (wav_read : string -> option wav) (sp : wave_spec) (s : string) (m : channels) (rate : Z) : Prop :=
  load s = LOk m rate \/ (load s = LCodec /\ ws_fallback sp = true /\ exists w, wav_read s = Some w /\ rate = wv_rate w /\ m = wav_channels w).
(* the wave of an item: channels averaged, files brought to the target rate *)
Inductive wave_of (load : string -> loaded) (wav_read : string -> option wav) (resample : channels -> Z -> Z -> result channels) (sp : wave_spec) : item -> list Q -> Prop :=
| wave_vec w : wave_of load wav_read resample sp (ArrayItem (Vec w)) w
| wave_mat m w : w = channel_mean m -> wave_of load wav_read resample sp (ArrayItem (Mat m)) w
| wave_file p s m rate m' : opened p s -> read load wav_read sp s m rate ->
    ((ws_rate sp = None \/ ws_rate sp = Some rate) /\ m' = m \/ exists r, ws_rate sp = Some r /\ r <> rate /\ resample m rate r = Ok m') ->
    wave_of load wav_read resample sp (PathItem p) (channel_mean m').
Definition is_path (i : item) : Prop := match i with PathItem _ => True | _ => False end.
(* the integers a sample type can hold *)
Definition holds (t : wav_type) (x : Q) : Prop :=
  match t with
  | I16 => (inject_Z (-32768) <= x <= inject_Z 32767)%Q
  | I32 => (inject_Z (-2147483648) <= x <= inject_Z 2147483647)%Q
  | U8 => (0 <= x <= inject_Z 255)%Q
  | OtherType => True
  end.
Definition frames_hold (t : wav_type) (f : frames) : Prop :=
  match f with Mono l => forall x, In x l -> holds t x | Multi c l => forall fr x, In fr l -> In x fr -> holds t x end.
(* the value of a sample: integers over the range of their type (unsigned bytes around 128), other samples as they are *)
Definition sample_value (t : wav_type) (x q : Q) : Prop :=
  match t with I16 => (q * inject_Z 32768 == x)%Q | I32 => (q * inject_Z 2147483648 == x)%Q | U8 => (q * inject_Z 128 + inject_Z 128 == x)%Q | OtherType => (q == x)%Q end.
(* sample i of channel j of the frames of a file *)
Definition frame_at (f : frames) (i j : nat) : Q := match f with Mono l => nth i l 0%Q | Multi _ l => nth j (nth i l []) 0%Q end.
Definition n_frames (f : frames) : nat := match f with Mono l => length l | Multi _ l => length l end.
Definition n_channels (f : frames) : nat := match f with Mono _ => 1%nat | Multi c _ => c end.
