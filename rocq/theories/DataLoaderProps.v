(* Theorems about the dataset cache: C14 lock, C15/C16 crash safety, C17 garbage collection,
   C18 bulk download report, C47 cache transparency. *)
From Coq Require Import String.
From Verif Require Import Prelude PyValue FsModel LockModel LockProofs DatasetCacheModel
  DatasetCacheSpec DatasetCacheProofs IndexModel IndexProofs.
Local Open Scope list_scope.

(* ------------------------------------------------------------------------------------ C14 *)
(* Mutual exclusion as stated fails: a refused process removes the holder's lock file. *)
Theorem C14_lock_mutex_refuted :
  exists sched p q, p <> q /\
    pcs (lrun sched lstart) p = Inside /\ pcs (lrun sched lstart) q = Inside.
Proof. exists [0; 1; 1; 2]%nat, 0%nat, 2%nat. split; [discriminate|]. split; reflexivity. Qed.

(* What is missing from the full property: schedules in which a refused attempt runs its cleanup. *)
Theorem C14_lock_mutex_partial :
  forall sched p q, no_refused_cleanup sched lstart ->
    pcs (lrun sched lstart) p = Inside -> pcs (lrun sched lstart) q = Inside -> p = q.
Proof. exact mutex_unless_refused. Qed.

Example C14_partial_nonvacuous :
  no_refused_cleanup [0; 1; 0; 0; 2]%nat lstart /\ pcs (lrun [0; 1; 0; 0; 2]%nat lstart) 2%nat = Inside.
Proof. cbn. repeat split; discriminate. Qed.

Theorem C14_lock_always_released :
  forall s p, pcs s p <> Outside ->
    exists k, (k <= 2)%nat /\ pcs (lrun (repeat p k) s) p = Outside /\
              lock_file (lrun (repeat p k) s) = false.
Proof. exact lock_released. Qed.

(* ------------------------------------------------------------------------- a worked instance *)
Definition npy (_ : Z) : string := ".npy"%string.
Definition demo_split (x y : Z) : dsplit Z :=
  {| ds_X := x; ds_y := y; ds_edges := None;
     ds_masks := Some [("train"%string, 7); ("val"%string, 8)] |}.
Definition demo_ds (x : Z) : dataset Z :=
  {| d_train := demo_split x 2; d_test := Some {| ds_X := 3; ds_y := 4; ds_edges := Some 5; ds_masks := None |};
     d_meta := [("name"%string, PStr "toy"); ("n"%string, PInt 3)] |}.
Definition demo_entry : entry := entry_of ["cache"%string] "abc".
Definition demo_names : list string :=
  ["train_X.npy"; "train_y.npy"; "train_mask_train.npy"; "train_mask_val.npy"; "test_X.npy";
   "test_y.npy"; "test_edges.npy"; "meta.json"; "layout.json"]%string.
Definition demo_listing (f : fs (cfile Z)) (d : path) : list path :=
  filter (exists_path f) (map (fun n => d ++ [n]) demo_names).
Definition fresh : fs (cfile Z) := fun _ => None.

Example demo_dataset_ok : forall x, dataset_ok npy (demo_ds x).
Proof.
  intros x. split; cbn; [|exact I]. split; [|reflexivity].
  repeat constructor; cbn; intuition discriminate.
Qed.
Example demo_listing_ok : listing_ok demo_names demo_listing.
Proof.
  intros f d. unfold demo_listing. split.
  - intros p H. apply filter_In in H. destruct H as [H _]. apply in_map_iff in H. destruct H as (n & <- & _). eauto.
  - intros HU n Hn. apply filter_In. split.
    + apply (in_map (fun n => d ++ [n])). apply HU, Hn.
    + unfold exists_path. destruct (f (d ++ [n])); congruence.
Qed.
Example demo_fresh_state : entry_state demo_names fresh demo_entry.
Proof. split; [right; split; reflexivity|]. intros n H. elim H. reflexivity. Qed.
Example demo_names_of : forall x, names_of npy demo_names demo_entry (demo_ds x).
Proof.
  intros x n H. destruct (in_dec string_dec n demo_names) as [Hi|Hi]; [exact Hi|]. exfalso. apply H.
  rewrite FsFacts.run_untouched; [reflexivity|]. intros s Hs Ht. apply Hi. cbn in Hs.
  repeat (destruct Hs as [<-|Hs]; [cbn in Ht; try discriminate Ht; injection Ht as <-; cbn; tauto|]).
  destruct Hs.
Qed.

Definition load1 x force := load_dataset npy ManifestError demo_listing demo_entry (Ok (demo_ds x)) true force.
Definition offline := load_dataset npy ManifestError demo_listing demo_entry (Err RuntimeError) false false.

(* ------------------------------------------------------------------------------------ C15 *)
(* f: no manifest is on disk (never downloaded, or an earlier attempt failed).  A crash at any point k
   of the download leaves a cache in which the dataset is either absent or complete. *)
Theorem C15_first_download_crash_safe :
  forall A (ext : A -> string) torn listing U root fp d force f k p,
  let e := entry_of root fp in
  dataset_ok ext d -> listing_ok U listing -> entry_state U f e -> f (e_manifest e) = None ->
  let g := crash k (snd (load_dataset ext torn listing e (Ok d) true force f)) f in
  let seen := value (load_dataset ext torn listing e p false false) g in
  seen = Err DatasetNotCachedError \/
  exists x, seen = Ok x /\ same_arrays x d /\ d_meta x = mapping_to_jsonable (d_meta d).
Proof.
  intros A ext torn listing U root fp d force f k p e Hok Hl Hd Hm g seen.
  destruct (first_download_crash ext torn listing U e d force f k p (entry_of_ok root fp) Hok Hl Hd Hm)
    as [H|H]; [left; exact H|right].
  exists (stored_form d). split; [exact H|]. split; [split|]; reflexivity.
Qed.

(* The next ordinary load with download returns the dataset; if the crash left the lock file behind,
   one load fails with FileExistsError first and the load after it returns the dataset. *)
Theorem C15_retry_recovers :
  forall A (ext : A -> string) torn listing U root fp d force f k,
  let e := entry_of root fp in
  dataset_ok ext d -> names_of ext U e d -> listing_ok U listing -> entry_state U f e ->
  f (e_manifest e) = None ->
  let load := load_dataset ext torn listing e (Ok d) true false in
  let g := crash k (snd (load_dataset ext torn listing e (Ok d) true force f)) f in
  (exists x, value load g = Ok x /\ same_arrays x d) \/
  (g (e_lock e) <> None /\ value load g = Err FileExistsError /\
   exists x, value load (after load g) = Ok x /\ same_arrays x d).
Proof.
  intros A ext torn listing U root fp d force f k e.
  exact (first_download_retry ext torn listing U e d force f k (entry_of_ok root fp)).
Qed.

(* the hypotheses are those of demo_dataset_ok, demo_listing_ok, demo_fresh_state, demo_names_of; both
   outcomes of the first theorem and both of the second occur *)
Example C15_nonvacuous :
  let t := snd (load1 1 false fresh) in
  value offline (crash 5 t fresh) = Err DatasetNotCachedError /\
  value offline (crash (length t) t fresh) = Ok (demo_ds 1) /\
  value (load1 1 false) (crash 5 t fresh) = Err FileExistsError.
Proof. vm_compute. auto. Qed.

(* A lock file left behind makes the download fail once, so the unconditional form of the retry claim
   is false. *)
Theorem C15_immediate_retry_refuted :
  exists k, value (load1 1 false) (crash k (snd (load1 1 false fresh)) fresh) = Err FileExistsError.
Proof. exists 5%nat. vm_compute. reflexivity. Qed.

(* ------------------------------------------------------------------------------------ C16 *)
(* The full claim fails: a crash in the middle of a forced re-download leaves an entry that every
   later ordinary load, offline or not, rejects with FileNotFoundError without repairing it. *)
Theorem C16_forced_redownload_refuted :
  exists f0 k,
    value offline f0 = Ok (demo_ds 1) /\
    let g := crash k (snd (load1 9 true f0)) f0 in
    value offline g = Err FileNotFoundError /\
    value (load1 9 false) g = Err FileNotFoundError /\
    snd (load1 9 false g) = [].
Proof. exists (after (load1 1 false) fresh), 4%nat. vm_compute. auto. Qed.

(* What does hold at every crash point, for every initial state: a load that succeeds returns either
   what the cache held before or the new dataset, never a mixture. *)
Theorem C16_no_mixture_partial :
  forall A (ext : A -> string) torn listing U root fp d force f k x p,
  let e := entry_of root fp in
  dataset_ok ext d -> listing_ok U listing -> entry_state U f e ->
  let offline := value (load_dataset ext torn listing e p false false) in
  offline (crash k (snd (load_dataset ext torn listing e (Ok d) true force f)) f) = Ok x ->
  offline f = Ok x \/ (same_arrays x d /\ d_meta x = mapping_to_jsonable (d_meta d)).
Proof.
  intros A ext torn listing U root fp d force f k x p e Hok Hl Hd off H.
  destruct (load_crash_no_mixture ext torn listing U e d force f k x p (entry_of_ok root fp) Hok Hl Hd H)
    as [H1|H1]; [left; exact H1|right; subst x; split; [split|]; reflexivity].
Qed.

(* and a forced re-download repairs every state in which the lock file is absent *)
Theorem C16_force_recovers :
  forall A (ext : A -> string) torn listing U root fp d f p,
  let e := entry_of root fp in
  dataset_ok ext d -> listing_ok U listing -> entry_state U f e -> f (e_lock e) = None ->
  let load := load_dataset ext torn listing e (Ok d) true true in
  value load f = Ok d /\
  exists x, value (load_dataset ext torn listing e p false false) (after load f) = Ok x /\ same_arrays x d.
Proof.
  intros A ext torn listing U root fp d f p e Hok Hl Hd Hx load.
  destruct (force_recovers ext torn listing U e d f p (entry_of_ok root fp) Hok Hl Hd Hx) as [H1 H2].
  split; [exact H1|]. exists (stored_form d). split; [exact H2|split; reflexivity].
Qed.

Example C16_nonvacuous :
  let f0 := after (load1 1 false) fresh in
  let t := snd (load1 9 true f0) in
  value offline (crash 2 t f0) = Ok (demo_ds 1) /\ value offline (crash (length t) t f0) = Ok (demo_ds 9).
Proof. vm_compute. auto. Qed.
(* the interrupted state of the refutation is repaired by force=True once its lock file is gone *)
Example C16_recovers_nonvacuous :
  let f0 := after (load1 1 false) fresh in
  let g := crash 4 (snd (load1 9 true f0)) f0 in
  value (load1 9 true) g = Err FileExistsError /\
  value (load1 9 true) (after (load1 9 true) g) = Ok (demo_ds 9).
Proof. vm_compute. auto. Qed.

(* ------------------------------------------------------------------------------------ C47 *)
(* Whatever a load returned, from whatever state, the next load is served from the cache and returns
   the same arrays; the metadata is the same whenever no list in it has more than 50 items. *)
Theorem C47_cached_load_same :
  forall A (ext : A -> string) torn listing U root fp d d' force f x dl,
  let e := entry_of root fp in
  dataset_ok ext d -> listing_ok U listing -> entry_state U f e ->
  value (load_dataset ext torn listing e (Ok d) true force) f = Ok x ->
  exists y,
    value (load_dataset ext torn listing e (Ok d') dl false)
      (after (load_dataset ext torn listing e (Ok d) true force) f) = Ok y /\
    same_arrays y x /\
    (Forall (fun p => small (snd p)) (d_meta x) -> y = x).
Proof.
  intros A ext torn listing U root fp d d' force f x dl e Hok Hl Hd H.
  destruct (load_then_cached ext torn listing U e d force f x d' dl (entry_of_ok root fp) Hok Hl Hd H)
    as (y & Hy & [->|[-> ->]]).
  - exists x. split; [exact Hy|]. split; [split; reflexivity|auto].
  - exists (stored_form d). split; [exact Hy|]. split; [split; reflexivity|].
    intros Hs. unfold stored_form. rewrite (small_meta _ Hs). destruct d; reflexivity.
Qed.

(* a list of 51 items in the metadata is replaced by a stub on the second load *)
Definition long_meta_ds : dataset Z :=
  {| d_train := demo_split 1 2; d_test := None;
     d_meta := [("classes"%string, PList (map PInt (arange 51)))] |}.
Theorem C47_long_metadata_refuted :
  exists x y,
    let load := load_dataset npy ManifestError demo_listing demo_entry (Ok long_meta_ds) true false in
    value load fresh = Ok x /\ value load (after load fresh) = Ok y /\ d_meta y <> d_meta x.
Proof. eexists; eexists. split; [vm_compute; reflexivity|]. split; [vm_compute; reflexivity|]. cbn. discriminate. Qed.

Example C47_nonvacuous :
  value (load1 1 false) fresh = Ok (demo_ds 1) /\ Forall (fun p => small (snd p)) (d_meta (demo_ds 1)).
Proof. split; [vm_compute; reflexivity|]. repeat constructor. Qed.

(* ------------------------------------------------------------------------------------ C17 *)
(* `ordered` is any result the database may return for ORDER BY canonical_uri, created_at DESC *)
Theorem C17_gc_keeps_newest :
  forall T (at_least : T -> T -> Prop) (table ordered : list (row T)),
  (forall t, at_least t t) -> NoDup (map r_fp table) -> Permutation ordered table ->
  StronglySorted (fun a b => r_uri a = r_uri b -> at_least (r_at a) (r_at b)) ordered ->
  let '(table', dead) := gc_keep_latest table ordered in
  (forall r, In r table' -> In r table) /\
  (forall fp, In fp dead <-> exists r, In r table /\ r_fp r = fp /\ ~ In r table') /\
  (forall r, In r table -> exists q, In q table' /\ r_uri q = r_uri r /\ at_least (r_at q) (r_at r) /\
     forall q', In q' table' -> r_uri q' = r_uri r -> q' = q).
Proof. intros T at_least. exact (gc_correct at_least). Qed.

Definition demo_rows : list (row Z) :=
  [{| r_fp := "f1"; r_uri := "u"; r_at := 3 |}; {| r_fp := "f2"; r_uri := "u"; r_at := 3 |};
   {| r_fp := "f3"; r_uri := "u"; r_at := 1 |}; {| r_fp := "f4"; r_uri := "v"; r_at := 2 |}]%string.
Example C17_nonvacuous :
  NoDup (map r_fp demo_rows) /\
  StronglySorted (fun a b : row Z => r_uri a = r_uri b -> r_at a >= r_at b) demo_rows /\
  snd (gc_keep_latest demo_rows demo_rows) = ["f2"; "f3"]%string.
Proof.
  split; [repeat constructor; cbn; intuition discriminate|]. split; [|reflexivity].
  repeat constructor; cbn; intros; try lia; discriminate.
Qed.

Theorem C17_index_is_keyed :
  forall T (table : list (row T)) r, NoDup (map r_fp table) ->
  NoDup (map r_fp (index_upsert table r)) /\
  (forall x, In x (index_upsert table r) <-> x = r \/ (In x table /\ r_fp x <> r_fp r)).
Proof. intros T. exact upsert_spec. Qed.

Theorem C17_purge_removes_exactly_the_dataset :
  forall T (table matching : list (row T)) uri,
  NoDup (map r_fp table) -> (forall r, In r matching <-> In r table /\ r_uri r = uri) ->
  forall r, In r (fst (purge_dataset table matching)) <-> In r table /\ r_uri r <> uri.
Proof. intros T. exact purge_dataset_correct. Qed.

(* ------------------------------------------------------------------------------------ C18 *)
(* every selected key ends in exactly one outcome list, and in the right one *)
Theorem C18_report_accounts_for_every_key :
  forall sort catalog inc exc mods outcome ign keys,
  (forall l, Permutation (sort l) l) ->
  select_keys sort catalog inc exc mods = Ok keys ->
  (ign = true \/ forall k x, In k keys -> outcome k <> MissingExtra x) ->
  exists rep,
    download_all sort catalog inc exc mods outcome ign = (Ok rep, keys) /\
    Permutation keys (downloaded rep ++ skipped_cached rep ++ skipped_missing rep ++ map fst (failed rep)) /\
    (forall k, In k (downloaded rep) <-> In k keys /\ outcome k = Done) /\
    (forall k, In k (skipped_cached rep) <-> In k keys /\ outcome k = Cached) /\
    (forall k, In k (skipped_missing rep) <-> In k keys /\ exists x, outcome k = MissingExtra x) /\
    (forall k m, In (k, m) (failed rep) <-> In k keys /\ outcome k = Broke m) /\
    (forall x k, (exists l, In (x, l) (missing_extras rep) /\ In k l) <->
                 In k keys /\ outcome k = MissingExtra x).
Proof.
  intros sort catalog inc exc mods outcome ign keys Hs Hk Hm.
  unfold download_all. rewrite Hk.
  destruct (loop_ok outcome ign keys empty_report [] Hm) as (rep & E & P0 & P1 & P2 & P3 & P4 & P5).
  exists rep. cbn in E, P0, P1, P2, P3, P4, P5. split; [exact E|].
  split; [rewrite P0, P1, P2, P3; apply partition4|].
  rewrite P0, P1, P2. unfold of_kind.
  split; [|split; [|split; [|split]]].
  - intros k. rewrite filter_In. destruct (outcome k); cbn; intuition (try discriminate; eauto).
  - intros k. rewrite filter_In. destruct (outcome k); cbn; intuition (try discriminate; eauto).
  - intros k. rewrite filter_In. destruct (outcome k); cbn; split.
    all: try (intros [? ?]; discriminate). all: try (intros [? [? ?]]; discriminate).
    + intros [? _]. eauto.
    + intros [? _]. auto.
  - intros k m. rewrite P4. tauto.
  - intros x k. rewrite P5. split; [intros [(l & [] & _)|H]; exact H|auto].
Qed.

Theorem C18_selection :
  forall sort catalog inc exc mods keys,
  (forall l, Permutation (sort l) l) -> select_keys sort catalog inc exc mods = Ok keys ->
  NoDup keys /\
  forall k, In k keys <->
    match inc with None => In k (map fst catalog) | Some l => In k l end /\
    match exc with None => True | Some e => ~ In k e end /\
    match mods with None | Some [] => True | Some ms => exists m, assoc k catalog = Some m /\ In m ms end.
Proof. exact select_ok. Qed.

(* with ignore_missing_extras=False the first missing extra aborts the call; no later key is touched *)
Theorem C18_abort_leaves_the_rest_untouched :
  forall sort catalog inc exc mods outcome before k x rest,
  select_keys sort catalog inc exc mods = Ok (before ++ k :: rest) ->
  (forall q y, In q before -> outcome q <> MissingExtra y) -> outcome k = MissingExtra x ->
  download_all sort catalog inc exc mods outcome false =
  (Err OptionalDependencyError, before ++ [k]).
Proof.
  intros sort catalog inc exc mods outcome before k x rest Hs Hb Hk. unfold download_all. rewrite Hs.
  exact (loop_abort outcome before k x rest empty_report [] Hb Hk).
Qed.

Example C18_nonvacuous :
  let cat := [("a", "text"); ("b", "vision"); ("c", "text"); ("d", "audio")]%string in
  let out k := if String.eqb k "a" then Done else if String.eqb k "b" then MissingExtra "vision"
               else if String.eqb k "c" then Broke "RuntimeError: x" else Cached in
  exists rep, download_all (fun l => l) cat None (Some ["z"%string]) None out true = (Ok rep, ["a"; "b"; "c"; "d"]%string) /\
    missing_extras rep = [("vision", ["b"])]%string /\
    download_all (fun l => l) cat None None None out false = (Err OptionalDependencyError, ["a"; "b"]%string).
Proof. eexists. vm_compute. auto. Qed.

Print Assumptions C14_lock_mutex_refuted.
Print Assumptions C14_lock_mutex_partial.
Print Assumptions C14_lock_always_released.
Print Assumptions C15_first_download_crash_safe.
Print Assumptions C15_retry_recovers.
Print Assumptions C15_immediate_retry_refuted.
Print Assumptions C16_forced_redownload_refuted.
Print Assumptions C16_no_mixture_partial.
Print Assumptions C16_force_recovers.
Print Assumptions C47_cached_load_same.
Print Assumptions C47_long_metadata_refuted.
Print Assumptions C17_gc_keeps_newest.
Print Assumptions C17_index_is_keyed.
Print Assumptions C17_purge_removes_exactly_the_dataset.
Print Assumptions C18_report_accounts_for_every_key.
Print Assumptions C18_selection.
Print Assumptions C18_abort_leaves_the_rest_untouched.
