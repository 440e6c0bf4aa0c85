(* Proofs about stored splits. *)
From Coq Require Import String.
From Verif Require Import Prelude FsModel FsFacts SplitStoreModel.
Local Open Scope list_scope.

Lemma strip_append p s : strip p (p ++ s)%string = Some s.
Proof.
  induction p as [|a p IH]; [destruct s; reflexivity|]. cbn. rewrite Ascii.eqb_refl. exact IH.
Qed.

Lemma unpack_idx ix (l : list (string * array)) :
  unpack (map (fun p : string * list Z => (("idx__" ++ fst p)%string, AInt (snd p))) ix ++ l) =
  (ix ++ fst (unpack l), snd (unpack l)).
Proof.
  induction ix as [|[k v] r IH]; cbn [map app unpack]; [destruct (unpack l); reflexivity|].
  rewrite IH. cbn [fst snd]. rewrite strip_append. reflexivity.
Qed.

Lemma unpack_mask ms :
  unpack (map (fun p : string * list bool => (("mask__" ++ fst p)%string, ABool (snd p))) ms) = ([], ms).
Proof.
  induction ms as [|[k v] r IH]; cbn [map unpack]; [reflexivity|]. rewrite IH. cbn [fst snd].
  cbn [strip append Ascii.eqb Bool.eqb]. destruct k; reflexivity.
Qed.

Lemma unpack_pack {M} (r : split_result M) : unpack (pack r) = (sr_indices r, sr_masks r).
Proof.
  unfold pack. rewrite unpack_idx, unpack_mask. cbn. rewrite app_nil_r. reflexivity.
Qed.

Lemma json_npz d : json_path d <> npz_path d.
Proof. apply app_neq. discriminate. Qed.
Lemma json_dir d : json_path d <> d. Proof. apply app_neq_dir. Qed.
Lemma npz_dir d : npz_path d <> d. Proof. apply app_neq_dir. Qed.

Lemma mkdir_other {V} (f : fs V) d p : p <> d -> exec f (SMkdir d) p = f p.
Proof. intros H. apply exec_untouched. cbn. congruence. Qed.

(* what the two files contain after a crash at point k *)
Lemma save_crash {M} d tmp (r : split_result M) ow f steps k :
  tmp_in d tmp -> save_split d tmp r ow f = Ok steps ->
  let g := crash k steps f in
  (g (json_path d) = f (json_path d) /\ g (npz_path d) = f (npz_path d)) \/
  (g (json_path d) = Some (NFile (Whole (FMeta (sr_meta r)))) /\
   (g (npz_path d) = f (npz_path d) \/ g (npz_path d) = Some (NFile Torn) \/
    g (npz_path d) = Some (NFile (Whole (FArrays (pack r)))))).
Proof.
  intros (T1 & T2 & T3) E g. unfold save_split in E. destruct (_ && _); [discriminate|].
  injection E as <-. subst g.
  pose proof (json_npz d) as N1. pose proof (json_dir d) as N2. pose proof (npz_dir d) as N3.
  destruct k as [|k]; [left; split; reflexivity|].
  unfold save_steps. set (f1 := exec f (SMkdir d)).
  assert (F1 : f1 (json_path d) = f (json_path d)) by (apply mkdir_other, N2).
  assert (F2 : f1 (npz_path d) = f (npz_path d)) by (apply mkdir_other, N3).
  change (crash (S k) (SMkdir d :: atomic_write tmp (json_path d) (FMeta (sr_meta r)) ++ ?l) f)
    with (crash k (atomic_write tmp (json_path d) (FMeta (sr_meta r)) ++ l) f1).
  rewrite crash_app. change (length (atomic_write tmp _ _)) with 3%nat.
  destruct (Nat.ltb_spec k 3) as [Hk|Hk].
  - rewrite (atomic_write_other tmp (json_path d) (npz_path d)) by congruence. rewrite F2.
    destruct (atomic_write_crash k tmp (json_path d) (FMeta (sr_meta r)) f1 T2) as [H|H]; rewrite H.
    + left. rewrite F1. auto.
    + right. auto.
  - right. set (f2 := run (atomic_write tmp (json_path d) (FMeta (sr_meta r))) f1).
    assert (G1 : f2 (json_path d) = Some (NFile (Whole (FMeta (sr_meta r)))))
      by (apply atomic_write_run, T2).
    assert (G2 : f2 (npz_path d) = f (npz_path d)).
    { unfold f2. rewrite <- (crash_all 3 (atomic_write tmp (json_path d) _)) by (cbn; lia).
      rewrite atomic_write_other by congruence. exact F2. }
    split.
    + rewrite crash_untouched; [exact G1|]. intros s [<-|[<-|[]]]; cbn; congruence.
    + destruct (k - 3)%nat as [|[|m]]; cbn.
      * auto.
      * rewrite set_same. auto.
      * assert (firstn m ([] : list (step (split_file M))) = []) as -> by (destruct m; reflexivity).
        cbn. rewrite set_same. auto.
Qed.

Lemma load_of {M} d (f : fs (split_file M)) m l :
  f (json_path d) = Some (NFile (Whole (FMeta m))) ->
  f (npz_path d) = Some (NFile (Whole (FArrays l))) ->
  load_split d f = Ok {| sr_meta := m; sr_indices := fst (unpack l); sr_masks := snd (unpack l) |}.
Proof. intros H1 H2. unfold load_split, read_file. rewrite H1, H2. reflexivity. Qed.

Lemma save_complete {M} d tmp (r : split_result M) ow f steps :
  tmp_in d tmp -> save_split d tmp r ow f = Ok steps ->
  run steps f (json_path d) = Some (NFile (Whole (FMeta (sr_meta r)))) /\
  run steps f (npz_path d) = Some (NFile (Whole (FArrays (pack r)))).
Proof.
  intros (T1 & T2 & T3) E. unfold save_split in E. destruct (_ && _); [discriminate|].
  injection E as <-. unfold save_steps. pose proof (json_npz d) as N1.
  change (SMkdir d :: ?a ++ ?b) with ((SMkdir d :: a) ++ b). rewrite run_app.
  split.
  - rewrite run_untouched by (intros s [<-|[<-|[]]]; cbn; congruence).
    change (run (SMkdir d :: ?a) f) with (run a (exec f (SMkdir d))). apply atomic_write_run, T2.
  - cbn. rewrite set_same. reflexivity.
Qed.

Lemma split_save_load {M} d tmp (r : split_result M) ow f steps :
  tmp_in d tmp -> save_split d tmp r ow f = Ok steps ->
  load_split d (run steps f) = Ok r.
Proof.
  intros Ht E. destruct (save_complete _ _ _ _ _ _ Ht E) as [H1 H2].
  rewrite (load_of _ _ _ _ H1 H2), unpack_pack. destruct r; reflexivity.
Qed.

Lemma split_first_save_crash {M} d tmp (r : split_result M) ow f steps k :
  tmp_in d tmp -> f (json_path d) = None -> f (npz_path d) = None ->
  save_split d tmp r ow f = Ok steps ->
  (exists e, load_split d (crash k steps f) = Err e) \/ load_split d (crash k steps f) = Ok r.
Proof.
  intros Ht H1 H2 E. destruct (save_crash d tmp r ow f steps k Ht E) as [[G1 G2]|[G1 [G2|[G2|G2]]]].
  - left. exists FileNotFoundError. unfold load_split, read_file. rewrite G1, H1. reflexivity.
  - left. exists FileNotFoundError. unfold load_split, read_file. rewrite G1, G2, H2. reflexivity.
  - left. exists ValueError. unfold load_split, read_file. rewrite G1, G2. reflexivity.
  - right. rewrite (load_of _ _ _ _ G1 G2), unpack_pack. destruct r; reflexivity.
Qed.

(* the complete list of outcomes of an interrupted overwrite *)
Lemma split_overwrite_crash {M} d tmp (old new : split_result M) f steps k :
  tmp_in d tmp -> load_split d f = Ok old ->
  save_split d tmp new true f = Ok steps ->
  (exists e, load_split d (crash k steps f) = Err e) \/
  load_split d (crash k steps f) = Ok old \/
  load_split d (crash k steps f) = Ok new \/
  load_split d (crash k steps f) =
    Ok {| sr_meta := sr_meta new; sr_indices := sr_indices old; sr_masks := sr_masks old |}.
Proof.
  intros Ht Hold E.
  destruct (save_crash d tmp new true f steps k Ht E) as [[G1 G2]|[G1 [G2|[G2|G2]]]].
  - right. left. unfold load_split, read_file in *. rewrite G1, G2. exact Hold.
  - right. right. right. unfold load_split, read_file in *. rewrite G1, G2. clear E G1 G2.
    destruct (f (json_path d)) as [[|[|[m|l]]]|]; cbn in Hold; try discriminate;
      destruct (f (npz_path d)) as [[|[|[m'|l']]]|]; cbn in Hold; try discriminate.
    injection Hold as <-. reflexivity.
  - left. exists ValueError. unfold load_split, read_file. rewrite G1, G2. reflexivity.
  - right. right. left. rewrite (load_of _ _ _ _ G1 G2), unpack_pack. destruct new; reflexivity.
Qed.

Lemma split_overwrite_same_arrays {M} d tmp (old new : split_result M) f steps k :
  tmp_in d tmp -> load_split d f = Ok old ->
  sr_indices old = sr_indices new -> sr_masks old = sr_masks new ->
  save_split d tmp new true f = Ok steps ->
  (exists e, load_split d (crash k steps f) = Err e) \/
  load_split d (crash k steps f) = Ok old \/ load_split d (crash k steps f) = Ok new.
Proof.
  intros Ht Hold H1 H2 E.
  destruct (split_overwrite_crash d tmp old new f steps k Ht Hold E) as [H|[H|[H|H]]]; auto.
  right. right. rewrite H, H1, H2. destruct new; reflexivity.
Qed.

(* after an interrupted first save the directory exists, so saving again needs overwrite=True *)
Lemma split_blocked_after_crash {M} d tmp (r r' : split_result M) f steps k :
  tmp_in d tmp -> f d = None -> save_split d tmp r false f = Ok steps -> (0 < k)%nat ->
  save_split d tmp r' false (crash k steps f) = Err FileExistsError.
Proof.
  intros (T1 & T2 & T3) Hd E Hk. unfold save_split in E. destruct (_ && _); [discriminate|].
  injection E as <-. destruct k as [|k]; [lia|].
  assert (G : crash (S k) (save_steps d tmp r) f d <> None).
  { unfold save_steps.
    change (crash (S k) (SMkdir d :: atomic_write tmp (json_path d) (FMeta (sr_meta r)) ++ ?l) f)
      with (crash k (atomic_write tmp (json_path d) (FMeta (sr_meta r)) ++ l) (exec f (SMkdir d))).
    rewrite crash_untouched.
    - cbn. rewrite Hd. rewrite set_same. discriminate.
    - pose proof (json_dir d). pose proof (npz_dir d).
      intros s Hs. apply in_app_or in Hs. cbn in Hs.
      destruct Hs as [[<-|[<-|[<-|[]]]]|[<-|[<-|[]]]]; cbn; intuition congruence. }
  unfold save_split, exists_path. destruct (crash _ _ f d); [reflexivity|contradiction].
Qed.
