(* C147: loading waveforms. *)
From Coq Require Import QArith Qabs Lqa Lia ZifyBool ZifyNat String.
From Verif Require Import Prelude QFacts ListFacts WaveModel WaveSpec WaveProofs.
Local Open Scope list_scope.
Local Notation length := List.length.

Section Loading.
Variable load : string -> loaded.
Variable wav_read : string -> option wav.
Variable resample : channels -> Z -> Z -> result channels.
Notation step := (transform load wav_read resample).
Notation wof := (wave_of load wav_read resample).

(* C147: the row of an item is the window of that item's wave *)
Theorem C147_rows sp X M : step sp X = Ok M ->
  exists ws, Forall2 (wof sp) (items_of X) ws /\
    match ws_max sp with Some max => Forall2 (window (Z.to_nat max) (ws_trim sp) (ws_pad sp)) ws M | None => M = ws end.
Proof.
  unfold transform. rewrite waves_items. destruct (load_items load wav_read resample sp (items_of X)) as [xs|e] eqn:E; cbn [bind]; [|discriminate]. apply load_items_ok in E as (E1 & E2). intros H. exists (map fst xs). split; [exact E1|].
  destruct xs as [|x0 xs]; [injection H as <-; cbn [map]; destruct (ws_max sp); [constructor|reflexivity]|]. remember (x0 :: xs) as ws eqn:EW. clear EW.
  destruct (existsb (String.eqb (ws_trim sp)) ["start"; "center"; "end"]%string) eqn:ET; cbn [negb] in H; [|discriminate]. apply known_trim in ET.
  assert (HR : forall rows : list (list Q), match ws_rate sp with Some _ => if existsb (fun w : list Q * option Z => match snd w with None => true | _ => false end) ws then Err PreprocessError else Ok rows | None => Ok rows end = Ok M -> M = rows) by (intros rows; destruct (ws_rate sp); [match goal with |- context [if ?b then _ else _] => destruct b end; [intros HQ; discriminate HQ|]|]; intros HQ; now injection HQ as <-).
  destruct (ws_max sp) as [max|].
  - destruct (max <=? 0)%Z; cbn [bind] in H; [discriminate|]. apply HR in H. subst M. clear -ET. induction ws as [|w ws IH]; cbn [map]; constructor; [now apply window_ok|exact IH].
  - destruct (existsb (fun w : list Q * option Z => negb (Nat.eqb (length (fst w)) (length (fst x0)))) ws); cbn [bind] in H; [discriminate|]. now apply HR in H.
Qed.
(* C147: all rows have the same length, max_length when it is given *)
Theorem C147_table sp X M : step sp X = Ok M ->
  length M = length (items_of X) /\ exists L, (forall row, In row M -> length row = L) /\ forall max, ws_max sp = Some max -> (M <> [] -> (0 < max)%Z) /\ (M <> [] -> L = Z.to_nat max).
Proof.
  intros H. pose proof H as H0. apply C147_rows in H as (ws & H1 & H2). pose proof (Forall2_length _ _ _ H1) as HL.
  unfold transform in H0. rewrite waves_items in H0. destruct (load_items load wav_read resample sp (items_of X)) as [xs|e] eqn:E; cbn [bind] in H0; [|discriminate]. pose proof (load_items_ok _ _ _ _ _ _ E) as (E1 & _). pose proof (Forall2_length _ _ _ E1) as HL1. rewrite map_length in HL1.
  destruct xs as [|x0 xs]; [injection H0 as <-; cbn [length] in HL1; split; [now rewrite HL1|]; exists O; split; [intros ? []|]; intros max _; split; congruence|].
  destruct (negb (existsb (String.eqb (ws_trim sp)) ["start"; "center"; "end"]%string)); [discriminate|]. destruct (ws_max sp) as [max|].
  - pose proof (Forall2_length _ _ _ H2) as HL2. split; [lia|]. exists (Z.to_nat max). split; [intros row Hr; clear -H2 Hr; induction H2 as [|w row' ws M Hw H2 IH]; [destruct Hr|]; destruct Hr as [<-|Hr]; [now apply window_length in Hw|exact (IH Hr)]|].
    intros max' [= <-]. split; [|reflexivity]. intros _. destruct (Z.leb_spec max 0); cbn [bind] in H0; [discriminate|lia].
  - subst M. split; [lia|]. exists (length (fst x0)). split; [|intros max [=]].
    destruct (existsb (fun w : list Q * option Z => negb (Nat.eqb (length (fst w)) (length (fst x0)))) (x0 :: xs)) eqn:EX; cbn [bind] in H0; [discriminate|].
    intros row Hr. assert (HM : ws = map fst (x0 :: xs)) by (destruct (ws_rate sp); [destruct (existsb _ _) in H0; [discriminate|]|]; now injection H0 as <-). rewrite HM in Hr. apply in_map_iff in Hr as (x & <- & Hx).
    destruct (Nat.eqb_spec (length (fst x)) (length (fst x0))) as [E3|E3]; [exact E3|]. exfalso. enough (existsb (fun w : list Q * option Z => negb (Nat.eqb (length (fst w)) (length (fst x0)))) (x0 :: xs) = true) by congruence. apply existsb_exists. exists x. split; [exact Hx|]. destruct (Nat.eqb_spec (length (fst x)) (length (fst x0))); [congruence|reflexivity].
Qed.
(* C147: when the step returns *)
Theorem C147_returns sp X : (exists M, step sp X = Ok M) <->
  exists ws, Forall2 (wof sp) (items_of X) ws /\
    (ws = [] \/ (trim_known (ws_trim sp) /\ match ws_max sp with Some max => (0 < max)%Z | None => forall w w', In w ws -> In w' ws -> length w = length w' end /\ (ws_rate sp <> None -> forall i, In i (items_of X) -> is_path i))).
Proof.
  unfold transform. rewrite waves_items. destruct (load_items load wav_read resample sp (items_of X)) as [xs|e] eqn:E; cbn [bind].
  2: { split; [intros (M & H); discriminate H|]. intros (ws & H & _). destruct (load_items_returns _ _ _ _ _ _ H) as (xs & H1 & _). congruence. }
  pose proof (load_items_ok _ _ _ _ _ _ E) as (E1 & E2).
  assert (HU : forall ws, Forall2 (wof sp) (items_of X) ws -> ws = map fst xs) by (intros ws H; destruct (load_items_returns _ _ _ _ _ _ H) as (ys & H1 & <-); congruence).
  assert (HP : existsb (fun w : list Q * option Z => match snd w with None => true | _ => false end) xs = false <-> forall i, In i (items_of X) -> is_path i).
  { clear -E2. induction E2 as [|i x l xs Hi E2 IH]; cbn [existsb]; [split; [intros _ i []|reflexivity]|]. rewrite orb_false_iff, IH. split.
    - intros (H1 & H2) j [<-|Hj]; [|now apply H2]. apply Hi. destruct (snd x); [discriminate|discriminate H1].
    - intros H. split; [|intros j Hj; apply H; now right]. destruct (snd x) eqn:ES; [reflexivity|]. exfalso. apply (proj2 Hi); [apply H; now left|reflexivity]. }
  assert (HLn : forall x0, In x0 xs -> existsb (fun w : list Q * option Z => negb (Nat.eqb (length (fst w)) (length (fst x0)))) xs = false <-> forall w w', In w (map fst xs) -> In w' (map fst xs) -> length w = length w').
  { intros x0 H0. split.
    - intros H. assert (HX : forall x, In x xs -> length (fst x) = length (fst x0)).
      { intros x Hx. destruct (Nat.eqb_spec (length (fst x)) (length (fst x0))) as [E3|E3]; [exact E3|]. exfalso. enough (existsb (fun w : list Q * option Z => negb (Nat.eqb (length (fst w)) (length (fst x0)))) xs = true) by congruence. apply existsb_exists. exists x. split; [exact Hx|]. destruct (Nat.eqb_spec (length (fst x)) (length (fst x0))); [congruence|reflexivity]. }
      intros w w' Hw Hw'. apply in_map_iff in Hw as (x & <- & Hx). apply in_map_iff in Hw' as (x' & <- & Hx'). rewrite (HX _ Hx), (HX _ Hx'). reflexivity.
    - intros H. match goal with |- ?b = false => destruct b eqn:EX end; [|reflexivity]. apply existsb_exists in EX as (x & Hx & HN). rewrite (H (fst x) (fst x0)) in HN; [|now apply in_map|now apply in_map]. rewrite Nat.eqb_refl in HN. discriminate. }
  destruct xs as [|x0 xs].
  { split; [intros _; exists []; split; [exact E1|now left]|intros _; now eexists]. }
  specialize (HLn x0 (or_introl eq_refl)). remember (x0 :: xs) as ws eqn:EW.
  assert (HNe : map fst ws <> []) by (rewrite EW; discriminate).
  destruct (existsb (String.eqb (ws_trim sp)) ["start"; "center"; "end"]%string) eqn:ET; cbn [negb].
  2: { split; [intros (M & H); discriminate H|]. intros (v & Hv & [H|(H & _)]); [rewrite (HU v Hv) in H; congruence|]. apply known_trim in H. congruence. }
  apply known_trim in ET. destruct (ws_max sp) as [max|].
  - destruct (Z.leb_spec max 0) as [HM|HM]; cbn [bind].
    { split; [intros (M & H); discriminate H|]. intros (v & Hv & [H|(_ & H & _)]); [rewrite (HU v Hv) in H; congruence|lia]. }
    destruct (ws_rate sp) as [q|].
    + destruct (existsb (fun w : list Q * option Z => match snd w with None => true | _ => false end) ws) eqn:EP.
      * split; [intros (M & H); discriminate H|]. intros (v & Hv & [H|(_ & _ & H)]); [rewrite (HU v Hv) in H; congruence|]. specialize (H ltac:(discriminate)). apply HP in H. congruence.
      * split; [|intros _; now eexists]. intros _. exists (map fst ws). split; [exact E1|]. right. split; [exact ET|]. split; [exact HM|]. intros _. now apply HP.
    + split; [|intros _; now eexists]. intros _. exists (map fst ws). split; [exact E1|]. right. split; [exact ET|]. split; [exact HM|]. congruence.
  - destruct (existsb (fun w : list Q * option Z => negb (Nat.eqb (length (fst w)) (length (fst x0)))) ws) eqn:EX; cbn [bind].
    { split; [intros (M & H); discriminate H|]. intros (v & Hv & [H|(_ & H & _)]); [rewrite (HU v Hv) in H; congruence|]. rewrite (HU v Hv) in H. apply HLn in H. congruence. }
    pose proof (proj1 HLn eq_refl) as HSame. destruct (ws_rate sp) as [q|].
    + destruct (existsb (fun w : list Q * option Z => match snd w with None => true | _ => false end) ws) eqn:EP.
      * split; [intros (M & H); discriminate H|]. intros (v & Hv & [H|(_ & _ & H)]); [rewrite (HU v Hv) in H; congruence|]. specialize (H ltac:(discriminate)). apply HP in H. congruence.
      * split; [|intros _; now eexists]. intros _. exists (map fst ws). split; [exact E1|]. right. split; [exact ET|]. split; [exact HSame|]. intros _. now apply HP.
    + split; [|intros _; now eexists]. intros _. exists (map fst ws). split; [exact E1|]. right. split; [exact ET|]. split; [exact HSame|]. congruence.
Qed.
(* C147: the wave of an item is determined; the channels of a wave are averaged sample by sample, whatever mono says *)
Theorem C147_wave sp i w w' : wof sp i w -> wof sp i w' -> w = w'.
Proof. apply wave_unique. Qed.
Theorem C147_mean m : averaged m (channel_mean m).
Proof. apply mean_averaged. Qed.
Theorem C147_mono sp X b : step {| ws_rate := ws_rate sp; ws_max := ws_max sp; ws_pad := ws_pad sp; ws_mono := b; ws_trim := ws_trim sp; ws_fallback := ws_fallback sp |} X = step sp X.
Proof.
  unfold transform. rewrite !waves_items. cbn [ws_trim ws_max ws_pad ws_rate].
  assert (HI : forall l, load_items load wav_read resample {| ws_rate := ws_rate sp; ws_max := ws_max sp; ws_pad := ws_pad sp; ws_mono := b; ws_trim := ws_trim sp; ws_fallback := ws_fallback sp |} l = load_items load wav_read resample sp l).
  { induction l as [|i l IH]; [reflexivity|]. cbn [load_items]. rewrite IH. replace (load_item load wav_read resample {| ws_rate := ws_rate sp; ws_max := ws_max sp; ws_pad := ws_pad sp; ws_mono := b; ws_trim := ws_trim sp; ws_fallback := ws_fallback sp |} i) with (load_item load wav_read resample sp i); [reflexivity|].
    destruct i as [p|a]; cbn [load_item ws_mono]; [|now rewrite (mono_same b), (mono_same (ws_mono sp))]. unfold load_path. cbn [ws_fallback ws_rate ws_mono]. destruct (match load (name_of p) with LOk m rate => Ok (m, rate) | LErr e => Err e | LCodec => _ end) as [[m rate]|e]; [|reflexivity]. cbn [bind].
    destruct (match ws_rate sp with None => _ | Some r => _ end) as [[m' rate']|e]; [|reflexivity]. cbn [bind]. now rewrite (mono_same b), (mono_same (ws_mono sp)). }
  now rewrite HI.
Qed.
(* C147: a batch is the batches of its parts, when max_length is given *)
Theorem C147_batch sp l1 l2 M1 M2 : ws_max sp <> None -> step sp (Items l1) = Ok M1 -> step sp (Items l2) = Ok M2 -> step sp (Items (l1 ++ l2)) = Ok (M1 ++ M2).
Proof.
  unfold transform. cbn [waves_of]. intros HM H1 H2.
  assert (HA : forall a b xs ys, load_items load wav_read resample sp a = Ok xs -> load_items load wav_read resample sp b = Ok ys -> load_items load wav_read resample sp (a ++ b) = Ok (xs ++ ys)).
  { induction a as [|i a IH]; intros b xs ys; cbn [load_items app]; [now intros [= <-] ->|]. destruct (load_item load wav_read resample sp i) as [x|e]; cbn [bind]; [|discriminate]. destruct (load_items load wav_read resample sp a) as [us|e]; cbn [bind]; [|discriminate]. intros [= <-] HB. rewrite (IH b us ys eq_refl HB). reflexivity. }
  destruct (load_items load wav_read resample sp l1) as [xs|e] eqn:X1; cbn [bind] in H1; [|discriminate]. destruct (load_items load wav_read resample sp l2) as [ys|e] eqn:X2; cbn [bind] in H2; [|discriminate]. rewrite (HA _ _ _ _ X1 X2). cbn [bind]. destruct (ws_max sp) as [max|]; [clear HM|congruence].
  destruct xs as [|x xs]; [injection H1 as <-; exact H2|]. destruct ys as [|y ys]; [injection H2 as <-; rewrite !app_nil_r; exact H1|]. cbn [app].
  destruct (negb (existsb (String.eqb (ws_trim sp)) ["start"; "center"; "end"]%string)); [discriminate|]. destruct (max <=? 0)%Z; [discriminate|]. cbn [bind] in *. change (x :: xs ++ y :: ys) with ((x :: xs) ++ y :: ys). rewrite map_app. destruct (ws_rate sp); [|injection H1 as <-; injection H2 as <-; reflexivity].
  rewrite existsb_app. destruct (existsb _ (x :: xs)); [discriminate|]. destruct (existsb _ (y :: ys)); [discriminate|]. injection H1 as <-. injection H2 as <-. reflexivity.
Qed.
(* C147: what the fallback reads from a wav file: one row per channel, one value per frame, scaled by the type of the samples *)
Theorem C147_samples w : fst (wav_channels w) = n_frames (wv_frames w) /\ length (snd (wav_channels w)) = n_channels (wv_frames w) /\
  forall j, (j < n_channels (wv_frames w))%nat -> length (nth j (snd (wav_channels w)) []) = n_frames (wv_frames w) /\
    forall i, (i < n_frames (wv_frames w))%nat -> sample_value (wv_type w) (frame_at (wv_frames w) i j) (nth i (nth j (snd (wav_channels w)) []) 0%Q).
Proof using Type.
  assert (HS : forall x, sample_value (wv_type w) x (scaled (wv_type w) x)) by (intros x; destruct (wv_type w); cbn [sample_value scaled]; field; discriminate).
  unfold wav_channels. destruct (wv_frames w) as [l|c l]; cbn [fst snd n_frames n_channels frame_at]; (split; [reflexivity|]).
  - split; [reflexivity|]. intros [|j] HJ; [|lia]. cbn [nth]. split; [apply map_length|]. intros i HI. rewrite (nth_indep (map (scaled (wv_type w)) l) 0%Q (scaled (wv_type w) 0%Q)) by (now rewrite map_length). rewrite map_nth. apply HS.
  - split; [now rewrite map_length, seq_length|]. intros j HJ. assert (HR : nth j (map (fun j => map (fun f => scaled (wv_type w) (nth j f 0%Q)) l) (seq 0 c)) [] = map (fun f => scaled (wv_type w) (nth j f 0%Q)) l).
    { apply nth_error_nth. rewrite nth_error_map, (nth_error_nth' _ 0%nat) by (now rewrite seq_length). now rewrite seq_nth by exact HJ. }
    rewrite HR. split; [apply map_length|].
    intros i HI. set (g := fun f => scaled (wv_type w) (nth j f 0%Q)). rewrite (nth_indep (map g l) 0%Q (g [])) by (now rewrite map_length). rewrite map_nth. apply HS.
Qed.
(* C147: samples that scipy reads as integers end in [-1, 1] *)
Theorem C147_range w : wv_type w <> OtherType -> frames_hold (wv_type w) (wv_frames w) -> (forall c l, wv_frames w = Multi c l -> forall f, In f l -> length f = c) ->
  forall ch x, In ch (snd (wav_channels w)) -> In x ch -> (-1 <= x <= 1)%Q.
Proof.
  intros HT HF HC. assert (HS : forall x, holds (wv_type w) x -> (-1 <= scaled (wv_type w) x <= 1)%Q).
  { intros x. destruct (wv_type w); cbn [holds scaled]; try congruence; intros (H1 & H2); unfold inject_Z in *.
    - split; [apply Qle_shift_div_l|apply Qle_shift_div_r]; try reflexivity; lra.
    - split; [apply Qle_shift_div_l|apply Qle_shift_div_r]; try reflexivity; lra.
    - split; [apply Qle_shift_div_l|apply Qle_shift_div_r]; try reflexivity; lra. }
  intros ch x Hch Hx. unfold wav_channels in Hch. destruct (wv_frames w) as [l|c l]; cbn [snd frames_hold] in *.
  - destruct Hch as [<-|[]]. apply in_map_iff in Hx as (q & <- & Hq). apply HS, HF, Hq.
  - apply in_map_iff in Hch as (j & <- & Hj). apply in_seq in Hj. apply in_map_iff in Hx as (f & <- & Hf). apply HS. apply (HF f); [exact Hf|]. apply nth_In. rewrite (HC c l eq_refl f Hf). lia.
Qed.
End Loading.

(* ---- instances *)
Definition wx_load (s : string) : loaded := if String.eqb s "a.wav" then LOk (3%nat, [[1; 2; 3]; [3; 4; 5]]%Q) 8000 else if String.eqb s "c.wav" then LCodec else LErr FileNotFoundError.
Definition wx_wav (s : string) : option wav := if String.eqb s "c.wav" then Some {| wv_rate := 8000; wv_type := I16; wv_frames := Multi 2 [[16384; -16384]; [0; 32767]]%Q |} else None.
Definition wx_resample (m : channels) (a b : Z) : result channels := if (b <=? 0)%Z then Err ValueError else Ok ((2 * fst m)%nat, map (fun ch => flat_map (fun x => [x; x]) ch) (snd m)).
Definition wx_spec (rate max : option Z) (mono : bool) : wave_spec := {| ws_rate := rate; ws_max := max; ws_pad := 0; ws_mono := mono; ws_trim := "center"; ws_fallback := true |}.
(* C147 refuted: a path given as bytes is not the file of that name *)
Theorem C147_bytes_refuted : exists sp s M, transform wx_load wx_wav wx_resample sp (Items [PathItem (PStr s)]) = Ok M /\ transform wx_load wx_wav wx_resample sp (Items [PathItem (PBytes s)]) = Err FileNotFoundError.
Proof. exists (wx_spec None None true), "a.wav"%string. eexists. split; [vm_compute; reflexivity|reflexivity]. Qed.
(* C147 refuted: mono=False does not keep the channels *)
Theorem C147_channels_refuted : exists sp M, ws_mono sp = false /\ transform wx_load wx_wav wx_resample sp (Num3 [(2%nat, [[1; 2]; [3; 4]]%Q)]) = Ok M /\ map (map Qred) M = [[2; 3]]%Q.
Proof. exists (wx_spec None None false). eexists. split; [reflexivity|]. split; [vm_compute; reflexivity|]. vm_compute. reflexivity. Qed.
(* C147 refuted: one waveform given as an array is refused, inside a list it is taken *)
Theorem C147_vector_refuted : exists sp v M, transform wx_load wx_wav wx_resample sp (Num1 v) = Err PreprocessError /\ transform wx_load wx_wav wx_resample sp (Items [ArrayItem (Vec v)]) = Ok M.
Proof. exists (wx_spec None None true), [1; 2; 3]%Q. eexists. split; [vm_compute; reflexivity|]. vm_compute. reflexivity. Qed.

Example C147_hypotheses :
  (exists M, transform wx_load wx_wav wx_resample (wx_spec (Some 16000%Z) (Some 4%Z) true) (Items [PathItem (PStr "a.wav"); PathItem (PStr "c.wav")]) = Ok M /\ map (map Qred) M = [[2; 3; 3; 4]; [0; 0; 32767 # 65536; 32767 # 65536]]%Q) /\
  (exists M, transform wx_load wx_wav wx_resample (wx_spec None (Some 2%Z) true) (Items [ArrayItem (Vec [1; 2; 3; 4; 5]%Q); ArrayItem (Vec [7]%Q)]) = Ok M /\ M = [[2; 3]; [7; 0]]%Q) /\
  (exists w, wx_wav "c.wav" = Some w /\ wv_type w <> OtherType /\ frames_hold (wv_type w) (wv_frames w)).
Proof.
  split; [eexists; split; [vm_compute; reflexivity|vm_compute; reflexivity]|]. split; [eexists; split; vm_compute; reflexivity|]. eexists. split; [reflexivity|]. split; [discriminate|]. cbn. intros fr x [<-|[<-|[]]] [<-|[<-|[]]]; split; vm_compute; discriminate.
Qed.

Print Assumptions C147_rows.
Print Assumptions C147_table.
Print Assumptions C147_returns.
Print Assumptions C147_wave.
Print Assumptions C147_mean.
Print Assumptions C147_mono.
Print Assumptions C147_batch.
Print Assumptions C147_range.
Print Assumptions C147_samples.
Print Assumptions C147_bytes_refuted.
Print Assumptions C147_channels_refuted.
Print Assumptions C147_vector_refuted.
Print Assumptions C147_hypotheses.
