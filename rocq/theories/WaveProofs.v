(* Lemmas behind C147. *)
From Coq Require Import QArith Qabs Lqa Lia ZifyBool ZifyNat String.
From Verif Require Import Prelude QFacts ListFacts WaveModel WaveSpec.
Local Open Scope list_scope.
Local Notation length := List.length.

Lemma name_opened p s : opened p s <-> name_of p = s.
Proof.
  unfold opened. destruct p; cbn [name_of]; split.
  - intros [[= ->]|(b & H & _)]; [reflexivity|discriminate].
  - intros ->. now left.
  - intros [H|(b & [= <-] & ->)]; [discriminate|reflexivity].
  - intros <-. right. now exists s0.
Qed.
Lemma mono_same mono a : as_wave mono a = as_wave true a.
Proof. destruct a; try reflexivity. now destruct mono. Qed.
Lemma known_trim t : existsb (String.eqb t) ["start"; "center"; "end"]%string = true <-> trim_known t.
Proof. unfold trim_known. cbn [existsb]. rewrite !orb_true_iff, !String.eqb_eq. intuition discriminate. Qed.
Lemma mean_averaged m : averaged m (channel_mean m).
Proof.
  unfold averaged, channel_mean. rewrite map_length, seq_length. split; [reflexivity|]. intros t Ht.
  set (f := fun t => (Qsum (map (fun ch => nth t ch 0%Q) (snd m)) / inject_Z (Z.of_nat (length (snd m))))%Q). rewrite (nth_indep _ 0%Q (f O)) by now rewrite map_length, seq_length. rewrite map_nth, seq_nth by exact Ht. cbn [Nat.add]. unfold f.
  destruct (snd m) as [|ch r]; [cbn; unfold Qeq; cbn; lia|]. field. unfold Qeq. cbn. lia.
Qed.
Lemma window_ok max trim pad w : trim_known trim -> window max trim pad w (pad_wave (trim_wave w max trim) max pad).
Proof.
  intros HT. unfold window, pad_wave, trim_wave. destruct (Nat.leb_spec (length w) max) as [H|H]; (split; [intros HL|intros HG]); try lia.
  - destruct (Nat.leb_spec max (length w)) as [H1|H1]; [|reflexivity]. replace (max - length w)%nat with O by lia. cbn [repeat]. now rewrite app_nil_r.
  - assert (HN : forall (r : list Q), length r = max -> (if Nat.leb max (length r) then r else r ++ repeat pad (max - length r)) = r) by (intros r Hr; rewrite Hr, Nat.leb_refl; reflexivity).
    assert (HD : (Nat.div (length w - max) 2 + max <= length w)%nat) by (pose proof (Nat.div_le_upper_bound (length w - max) 2 (length w - max)); lia).
    destruct HT as [->|[->| ->]]; cbn [String.eqb Ascii.eqb Bool.eqb].
    + rewrite HN by (rewrite firstn_length; lia). exists [], (skipn max w). cbn [app]. rewrite firstn_skipn, firstn_length. split; [reflexivity|]. split; [lia|]. split; [reflexivity|]. split; discriminate.
    + set (s := Nat.div (length w - max) 2) in *. rewrite HN by (rewrite firstn_length, skipn_length; lia). exists (firstn s w), (skipn max (skipn s w)). rewrite firstn_skipn, firstn_skipn. rewrite !firstn_length, skipn_length. split; [reflexivity|]. split; [lia|]. split; [discriminate|]. split; [discriminate|]. intros _. lia.
    + rewrite HN by (rewrite skipn_length; lia). exists (firstn (length w - max) w), []. rewrite app_nil_r, firstn_skipn, skipn_length. split; [reflexivity|]. split; [lia|]. split; [discriminate|]. split; [reflexivity|discriminate].
Qed.
Lemma window_length max trim pad w row : window max trim pad w row -> length row = max.
Proof. intros (H1 & H2). destruct (Nat.le_gt_cases (length w) max) as [H|H]; [rewrite (H1 H), app_length, repeat_length; lia|]. now destruct (H2 H) as (? & ? & _ & ? & _). Qed.

Section Loading.
Variable load : string -> loaded.
Variable wav_read : string -> option wav.
Variable resample : channels -> Z -> Z -> result channels.
Notation wof := (wave_of load wav_read resample).
Lemma load_item_ok sp i w r : load_item load wav_read resample sp i = Ok (w, r) -> wof sp i w /\ (r <> None <-> is_path i).
Proof.
  destruct i as [p|a]; cbn [load_item is_path].
  - unfold load_path. destruct (match load (name_of p) with LOk m rate => Ok (m, rate) | LCodec => _ | LErr e => Err e end) as [[m rate]|e] eqn:E; cbn [bind]; [|discriminate].
    assert (HR : read load wav_read sp (name_of p) m rate).
    { unfold read. destruct (load (name_of p)) as [m0 r0| |e0]; [injection E as -> ->; now left| |discriminate]. right. split; [reflexivity|]. destruct (ws_fallback sp); cbn [negb] in E; [|discriminate]. split; [reflexivity|].
      destruct (wav_read (name_of p)) as [v|]; [|discriminate]. injection E as <- <-. exists v. now repeat split. }
    destruct (ws_rate sp) as [q|] eqn:EQ.
    + destruct (Z.eqb_spec rate q) as [->|HQ].
      * cbn [bind as_wave]. replace (if ws_mono sp then Ok (channel_mean m) else Ok (channel_mean m)) with (Ok (channel_mean m)) by now destruct (ws_mono sp). cbn [bind]. intros [= <- <-]. split; [|now split].
        apply (wave_file _ _ _ _ p (name_of p) m q m); [now apply name_opened|exact HR|]. left. split; [now right|reflexivity].
      * destruct (resample m rate q) as [m'|e] eqn:ES; cbn [bind as_wave]; [|discriminate]. replace (if ws_mono sp then Ok (channel_mean m') else Ok (channel_mean m')) with (Ok (channel_mean m')) by now destruct (ws_mono sp). cbn [bind]. intros [= <- <-]. split; [|now split].
        apply (wave_file _ _ _ _ p (name_of p) m rate m'); [now apply name_opened|exact HR|]. right. exists q. repeat split; [exact EQ|congruence|exact ES].
    + cbn [bind as_wave]. replace (if ws_mono sp then Ok (channel_mean m) else Ok (channel_mean m)) with (Ok (channel_mean m)) by now destruct (ws_mono sp). cbn [bind]. intros [= <- <-]. split; [|now split].
      apply (wave_file _ _ _ _ p (name_of p) m rate m); [now apply name_opened|exact HR|]. left. split; [now left|reflexivity].
  - rewrite mono_same. destruct a; cbn [as_wave bind]; try discriminate; intros [= <- <-]; (split; [constructor; reflexivity|]); (split; [congruence|contradiction]).
Qed.
Lemma load_item_returns sp i w : wof sp i w -> exists r, load_item load wav_read resample sp i = Ok (w, r).
Proof.
  intros H. destruct H as [w|m w ->|p s m rate m' HO HR HS]; cbn [load_item].
  - cbn [as_wave bind]. now eexists.
  - rewrite mono_same. cbn [as_wave bind]. now eexists.
  - apply name_opened in HO. unfold load_path. rewrite HO.
    assert (HE : match load s with LOk m rate => Ok (m, rate) | LErr e => Err e | LCodec => if negb (ws_fallback sp) then Err PreprocessError else match wav_read s with None => Err RuntimeError | Some w => Ok (wav_channels w, wv_rate w) end end = Ok (m, rate)).
    { destruct HR as [->|(-> & -> & v & -> & -> & ->)]; reflexivity. }
    rewrite HE. cbn [bind]. assert (HF : match ws_rate sp with None => Ok (m, rate) | Some r => if (rate =? r)%Z then Ok (m, rate) else do m <- resample m rate r; Ok (m, r) end = Ok (m', match ws_rate sp with None => rate | Some r => r end)).
    { destruct HS as [([HS|HS] & ->)|(r & HS & HN & HX)]; rewrite HS; [reflexivity|now rewrite Z.eqb_refl|]. destruct (Z.eqb_spec rate r) as [E|_]; [congruence|]. rewrite HX. reflexivity. }
    rewrite HF. cbn [bind]. rewrite mono_same. cbn [as_wave bind]. now eexists.
Qed.
Lemma load_items_ok sp : forall l xs, load_items load wav_read resample sp l = Ok xs -> Forall2 (wof sp) l (map fst xs) /\ Forall2 (fun i x => snd x <> None <-> is_path i) l xs.
Proof.
  induction l as [|i l IH]; intros xs; cbn [load_items]; [intros [= <-]; split; constructor|]. destruct (load_item load wav_read resample sp i) as [[w r]|e] eqn:E; cbn [bind]; [|discriminate].
  destruct (load_items load wav_read resample sp l) as [ys|e]; cbn [bind]; [|discriminate]. intros [= <-]. apply load_item_ok in E as (E1 & E2). destruct (IH ys eq_refl) as (I1 & I2). cbn [map fst]. split; constructor; assumption.
Qed.
Lemma load_items_returns sp : forall l ws, Forall2 (wof sp) l ws -> exists xs, load_items load wav_read resample sp l = Ok xs /\ map fst xs = ws.
Proof.
  induction l as [|i l IH]; intros ws H; inversion H as [|i' w l' ws' H1 H2]; subst; cbn [load_items]; [exists []; now split|]. destruct (load_item_returns sp i w H1) as (r & ->). cbn [bind]. destruct (IH ws' H2) as (xs & -> & <-). cbn [bind]. exists ((w, r) :: xs). now split.
Qed.
Lemma waves_items sp X : waves_of load wav_read resample sp X = load_items load wav_read resample sp (items_of X).
Proof.
  destruct X; try reflexivity. cbn [waves_of items_of]. induction rows as [|r rows IH]; [reflexivity|]. cbn [map load_items load_item as_wave bind]. rewrite <- IH. reflexivity.
Qed.
Lemma wave_unique sp i w w' : wof sp i w -> wof sp i w' -> w = w'.
Proof. intros H H'. apply load_item_returns in H as (r & H). apply load_item_returns in H' as (r' & H'). congruence. Qed.
End Loading.
