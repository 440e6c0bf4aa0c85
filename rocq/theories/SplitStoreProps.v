(* Property theorems about stored splits: C13.  Crashes: FsModel.v. *)
From Coq Require Import String.
From Verif Require Import Prelude FsModel FsFacts SplitStoreModel SplitStoreProofs.
Local Open Scope list_scope.
Local Open Scope string_scope.

(* tmp_in d tmp: the temporary file is none of the directory, split.json, arrays.npz *)
Theorem C13_save_load_round_trip :
  forall (M : Type) d tmp (r : split_result M) overwrite f steps,
  tmp_in d tmp -> save_split d tmp r overwrite f = Ok steps ->
  load_split d (run steps f) = Ok r.
Proof. exact @split_save_load. Qed.
Print Assumptions C13_save_load_round_trip.

(* saving is refused exactly when the directory exists and overwrite was not asked for *)
Theorem C13_save_refused_iff :
  forall (M : Type) d tmp (r : split_result M) overwrite f e,
  save_split d tmp r overwrite f = Err e <-> (e = FileExistsError /\ overwrite = false /\ f d <> None).
Proof.
  intros M d tmp r ow f e. unfold save_split, exists_path. destruct (f d) eqn:E, ow; cbn; split.
  all: try discriminate. all: try (intros (_ & H & H'); congruence). all: try (intros [= <-]); intuition congruence.
Qed.
Print Assumptions C13_save_refused_iff.

Theorem C13_first_save_crash_safe :
  forall (M : Type) d tmp (r : split_result M) overwrite f steps k,
  tmp_in d tmp -> f (json_path d) = None -> f (npz_path d) = None ->
  save_split d tmp r overwrite f = Ok steps ->
  (exists e, load_split d (crash k steps f) = Err e) \/ load_split d (crash k steps f) = Ok r.
Proof. exact @split_first_save_crash. Qed.
Print Assumptions C13_first_save_crash_safe.

(* missing: overwriting by a split with different arrays, see the refutation *)
Theorem C13_overwrite_crash_same_arrays_partial :
  forall (M : Type) d tmp (old new : split_result M) f steps k,
  tmp_in d tmp -> load_split d f = Ok old ->
  sr_indices old = sr_indices new -> sr_masks old = sr_masks new ->
  save_split d tmp new true f = Ok steps ->
  (exists e, load_split d (crash k steps f) = Err e) \/
  load_split d (crash k steps f) = Ok old \/ load_split d (crash k steps f) = Ok new.
Proof. exact @split_overwrite_same_arrays. Qed.
Print Assumptions C13_overwrite_crash_same_arrays_partial.

(* in general the only further outcome is new metadata with the old arrays *)
Theorem C13_overwrite_crash_outcomes :
  forall (M : Type) d tmp (old new : split_result M) f steps k,
  tmp_in d tmp -> load_split d f = Ok old ->
  save_split d tmp new true f = Ok steps ->
  (exists e, load_split d (crash k steps f) = Err e) \/
  load_split d (crash k steps f) = Ok old \/
  load_split d (crash k steps f) = Ok new \/
  load_split d (crash k steps f) =
    Ok {| sr_meta := sr_meta new; sr_indices := sr_indices old; sr_masks := sr_masks old |}.
Proof. exact @split_overwrite_crash. Qed.
Print Assumptions C13_overwrite_crash_outcomes.

Definition old_split : split_result Z :=
  {| sr_meta := 1%Z; sr_indices := [("train", [0; 1; 2]%Z); ("test", [3]%Z)]; sr_masks := [] |}.
Definition new_split : split_result Z :=
  {| sr_meta := 2%Z; sr_indices := [("train", [3]%Z); ("test", [0; 1; 2]%Z)]; sr_masks := [] |}.
Definition empty_fs {M} : fs (split_file M) := fun _ => None.
Definition dir : path := ["cache"; "splits"].
Definition tmp : path := ["cache"; "splits"; "tmp123"].
Definition stored : fs (split_file Z) := run (save_steps dir tmp old_split) empty_fs.

Theorem C13_overwrite_crash_refuted :
  exists steps k r,
  load_split dir stored = Ok old_split /\ save_split dir tmp new_split true stored = Ok steps /\
  load_split dir (crash k steps stored) = Ok r /\ r <> old_split /\ r <> new_split.
Proof.
  eexists. exists 4%nat. eexists. split; [vm_compute; reflexivity|].
  split; [reflexivity|]. split; [vm_compute; reflexivity|]. split; discriminate.
Qed.
Print Assumptions C13_overwrite_crash_refuted.

(* an interrupted first save makes every later save without overwrite fail *)
Theorem C13_interrupted_save_blocks_retry :
  forall (M : Type) d tmp (r r' : split_result M) f steps k,
  tmp_in d tmp -> f d = None -> save_split d tmp r false f = Ok steps -> (0 < k)%nat ->
  save_split d tmp r' false (crash k steps f) = Err FileExistsError.
Proof. exact @split_blocked_after_crash. Qed.
Print Assumptions C13_interrupted_save_blocks_retry.

Example C13_example :
  tmp_in dir tmp /\ @empty_fs Z (json_path dir) = None /\
  (exists steps, save_split dir tmp old_split false empty_fs = Ok steps /\ length steps = 6%nat /\
     load_split dir (crash 5 steps empty_fs) = Err ValueError /\
     load_split dir (crash 6 steps empty_fs) = Ok old_split).
Proof.
  split. { repeat split; discriminate. } split; [reflexivity|].
  eexists. split; [reflexivity|]. split; [reflexivity|]. split; vm_compute; reflexivity.
Qed.
