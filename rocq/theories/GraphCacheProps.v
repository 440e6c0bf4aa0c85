(* C26, C27, C51: the graph cache and cached graph construction. *)
From Coq Require Import String ZifyBool ZifyNat.
From Verif Require Import Prelude ListFacts FsModel FsFacts GraphOpsModel KnnModel KnnSpec KnnProofs
  GraphCacheModel GraphCacheSpec GraphCacheProofs.
Local Open Scope Z_scope.
Local Open Scope list_scope.

(* concrete case used in the examples: a directory with the names below, listed in this order *)
Definition dir_names : list string :=
  ["edge_weight.npy"; "edge_index.npy"; "edges_0000.npz"; "edges_0001.npz"; "manifest.json"; "_work"]%string.
Definition list_dir (d : path) (f : fs (gfile Z string string)) : list string :=
  filter (fun nm => exists_path f (d ++ [nm])) dir_names.
Definition no_sub : fs (gfile Z string string) -> string -> list path := fun _ _ => [].
Lemma list_dir_ok d : listing_ok (list_dir d) d.
Proof.
  intros f nm Hn He. apply filter_In. split.
  - cbn in *. tauto.
  - unfold exists_path. destruct (f (d ++ [nm])); [reflexivity|congruence].
Qed.
Definition g3 : graph Z string :=
  {| g_n := 3; g_edges := [(0,1); (1,2); (2,0)]; g_w := Some [5; 6; 7]; g_directed := true; g_meta := "m"%string |}.
Definition g2 : graph Z string :=
  {| g_n := 2; g_edges := [(0,1)]; g_w := None; g_directed := false; g_meta := "n"%string |}.
Lemma g3_valid : valid_graph g3.
Proof. split; [|reflexivity]. cbn. intros i j [[= <- <-]|[[= <- <-]|[[= <- <-]|[]]]]; lia. Qed.
Lemma g2_valid : valid_graph g2.
Proof. split; [|exact I]. cbn. intros i j [[= <- <-]|[]]; lia. Qed.

(* ------------------------------------------------------------------------------------ C26 *)
(* saving and loading gives the same graph and the caller's manifest entries, for every shard size
   (0 stands for "not sharded"), whatever was in the directory before *)
Theorem C26_round_trip : forall (W M U : Type) (ls : fs (gfile W M U) -> list string) sub d size g user rnd f,
  listing_ok ls d -> 0 <= size -> valid_graph g ->
  value (save ls sub d size g user true rnd) f = Ok tt /\
  exists m, load (after (save ls sub d size g user true rnd) f) d = Ok (g, m) /\
            mf_user m = user /\ mf_n m = g_n g /\ mf_directed m = g_directed g /\ mf_meta m = g_meta g.
Proof.
  intros W M U ls sub d size g user rnd f Hls Hs Hv. split; [unfold value; rewrite save_eq; reflexivity|].
  exists (manifest_of size g user).
  split; [apply load_complete; [exact Hs|exact Hv|apply save_done, Hls]|]. repeat split; reflexivity.
Qed.
(* overwrite=False: the same when the directory has no weight file left from an earlier graph *)
Theorem C26_round_trip_no_overwrite : forall (W M U : Type) (ls : fs (gfile W M U) -> list string) sub d size g user rnd f,
  f (d ++ ["edge_weight.npy"%string]) = None -> 0 <= size -> valid_graph g ->
  exists m, load (after (save ls sub d size g user false rnd) f) d = Ok (g, m) /\ mf_user m = user.
Proof.
  intros W M U ls sub d size g user rnd f Hf Hs Hv. exists (manifest_of size g user). split; [|reflexivity].
  apply load_complete; [exact Hs|exact Hv|apply save_done_fresh, Hf].
Qed.
(* the number of shards read back does not change the graph: two shard sizes, same loaded graph *)
Theorem C26_shard_size_irrelevant : forall (W M U : Type) (ls : fs (gfile W M U) -> list string) sub d size size' g user rnd f g1 m1 g2 m2,
  listing_ok ls d -> 0 <= size -> 0 <= size' -> valid_graph g ->
  load (after (save ls sub d size g user true rnd) f) d = Ok (g1, m1) ->
  load (after (save ls sub d size' g user true rnd) f) d = Ok (g2, m2) -> g1 = g2.
Proof.
  intros W M U ls sub d s s' g user rnd f h1 m1 h2 m2 Hls H1 H2 Hv E1 E2.
  destruct (C26_round_trip W M U ls sub d s g user rnd f Hls H1 Hv) as [_ (a & Ea & _)].
  destruct (C26_round_trip W M U ls sub d s' g user rnd f Hls H2 Hv) as [_ (b & Eb & _)]. congruence.
Qed.
(* a negative shard size is accepted, writes no shard at all, and loading silently returns no edges *)
Theorem C26_negative_shard_refuted : exists ls sub d size g user rnd f m,
  listing_ok ls d /\ valid_graph g /\ size < 0 /\ g_edges g <> [] /\
  value (@save Z string string ls sub d size g user true rnd) f = Ok tt /\
  load (after (save ls sub d size g user true rnd) f) d =
    Ok ({| g_n := g_n g; g_edges := []; g_w := None; g_directed := g_directed g; g_meta := g_meta g |}, m).
Proof.
  exists (list_dir ["e"%string]), no_sub, ["e"%string], (-2), g3, "u"%string, "r"%string, (fun _ => None). eexists.
  split; [apply list_dir_ok|]. split; [exact g3_valid|]. split; [lia|]. split; [discriminate|].
  split; [reflexivity|]. vm_compute. reflexivity.
Qed.
(* overwrite=False over an entry with weights: a graph without weights gets the old weights (same number of
   edges) or can no longer be loaded (another number of edges) *)
Theorem C26_stale_weights_refuted : exists ls sub d (old g g' : graph Z string) user rnd,
  listing_ok ls d /\ valid_graph old /\ valid_graph g /\ valid_graph g' /\
  let f := after (@save Z string string ls sub d 0 old user true rnd) (fun _ => None) in
  g_w g = None /\
  (exists m, load (after (save ls sub d 0 g user false rnd) f) d =
     Ok ({| g_n := g_n g; g_edges := g_edges g; g_w := g_w old; g_directed := g_directed g; g_meta := g_meta g |}, m)
     /\ g_w old <> None) /\
  load (after (save ls sub d 0 g' user false rnd) f) d = Err GraphValidationError.
Proof.
  exists (list_dir ["e"%string]), no_sub, ["e"%string], g3,
    {| g_n := 3; g_edges := [(1,0); (2,1); (0,2)]; g_w := None; g_directed := true; g_meta := "n"%string |}, g2,
    "u"%string, "r"%string.
  split; [apply list_dir_ok|]. split; [exact g3_valid|].
  split. { split; [|exact I]. cbn. intros i j [[= <- <-]|[[= <- <-]|[[= <- <-]|[]]]]; lia. }
  split; [exact g2_valid|]. cbv zeta. split; [reflexivity|]. split; [|vm_compute; reflexivity].
  eexists. split; [vm_compute; reflexivity|discriminate].
Qed.
Example C26_example :
  let f := after (save (list_dir ["e"%string]) no_sub ["e"%string] 2 g3 "u"%string true "r"%string) (fun _ => None) in
  f ["e"; "edges_0001.npz"]%string = Some (NFile (Whole (GShard [(2,0)] (Some [7])))) /\
  exists m, load f ["e"%string] = Ok (g3, m).
Proof. split; [vm_compute; reflexivity|]. eexists. vm_compute. reflexivity. Qed.

(* ------------------------------------------------------------------------------------ C27 *)
(* first save of an entry, killed at any point: the entry is absent or complete *)
Theorem C27_first_save : forall (W M U : Type) (ls : fs (gfile W M U) -> list string) sub d size g user rnd f k,
  listing_ok ls d -> 0 <= size -> valid_graph g -> f (d ++ ["manifest.json"%string]) = None ->
  let f' := crash k (snd (save ls sub d size g user true rnd f)) f in
  (entry_exists f' d = false /\ load f' d = Err CacheError) \/
  (exists m, load f' d = Ok (g, m) /\ mf_user m = user).
Proof.
  intros W M U ls sub d size g user rnd f k Hls Hs Hv Hm f'.
  destruct (save_phases ls sub d size g user rnd f k Hls) as [H|[H|H]]; fold f' in H.
  - left. assert (E : f' (man d) = None).
    { destruct (H (man d) (app_neq_dir _ _)) as [E|E]; [rewrite E; exact Hm|exact E]. }
    unfold entry_exists, exists_path, load. fold (man d). rewrite E. split; reflexivity.
  - left. unfold entry_exists, exists_path, load. fold (man d). rewrite H. split; reflexivity.
  - right. exists (manifest_of size g user). split; [|reflexivity]. apply load_complete; assumption.
Qed.
(* replacing a loadable entry, killed at any point: never a mixture of the two, but the old graph may have
   lost its weights, or the entry may be unreadable *)
Theorem C27_overwrite_crash_partial : forall (W M U : Type) (ls : fs (gfile W M U) -> list string) sub d size old m g user rnd f k,
  listing_ok ls d -> 0 <= size -> valid_graph g -> load f d = Ok (old, m) ->
  let f' := crash k (snd (save ls sub d size g user true rnd f)) f in
  (exists e, load f' d = Err e) \/ load f' d = Ok (old, m) \/ load f' d = Ok (without_weights old, m) \/
  (exists m', load f' d = Ok (g, m') /\ mf_user m' = user).
Proof.
  intros W M U ls sub d size old m g user rnd f k Hls Hs Hv Hl f'.
  destruct (save_phases ls sub d size g user rnd f k Hls) as [H|[H|H]]; fold f' in H.
  - destruct (load_missing f f' d old m H Hl) as [E|[E|E]]; auto.
  - left. exists CacheError. unfold load. fold (man d). rewrite H. reflexivity.
  - right. right. right. exists (manifest_of size g user). split; [|reflexivity]. apply load_complete; assumption.
Qed.
(* a sharded entry, or one without weights, never loses its weights this way: old, new or an error *)
Theorem C27_overwrite_crash_without_weight_file : forall (W M U : Type) (ls : fs (gfile W M U) -> list string) sub d size old m g user rnd f k,
  listing_ok ls d -> 0 <= size -> valid_graph g -> load f d = Ok (old, m) -> g_w old = None ->
  let f' := crash k (snd (save ls sub d size g user true rnd f)) f in
  (exists e, load f' d = Err e) \/ load f' d = Ok (old, m) \/
  (exists m', load f' d = Ok (g, m') /\ mf_user m' = user).
Proof.
  intros W M U ls sub d size old m g user rnd f k Hls Hs Hv Hl Hw f'.
  destruct (C27_overwrite_crash_partial W M U ls sub d size old m g user rnd f k Hls Hs Hv Hl) as [H|[H|[H|H]]]; auto.
  right. left. fold f' in H. rewrite H. destruct old. cbn in *. subst. reflexivity.
Qed.
(* what is missing: the directory is cleared file by file before the new files are written *)
Theorem C27_overwrite_loses_weights_refuted : exists ls sub d (old g : graph Z string) m user rnd f k,
  listing_ok ls d /\ valid_graph old /\ valid_graph g /\ @load Z string string f d = Ok (old, m) /\
  let f' := crash k (snd (save ls sub d 0 g user true rnd f)) f in
  load f' d = Ok (without_weights old, m) /\ without_weights old <> old.
Proof.
  exists (list_dir ["e"%string]), no_sub, ["e"%string], g3, g2. eexists. exists "u"%string, "r"%string,
    (after (save (list_dir ["e"%string]) no_sub ["e"%string] 0 g3 "u"%string true "r"%string) (fun _ => None)), 2%nat.
  split; [apply list_dir_ok|]. split; [exact g3_valid|]. split; [exact g2_valid|].
  split; [vm_compute; reflexivity|]. split; [vm_compute; reflexivity|discriminate].
Qed.
(* and an entry killed one file later says it exists but cannot be loaded, so a cached build fails until
   the directory is removed by hand *)
Theorem C27_unreadable_entry_refuted : exists ls sub d (old g : graph Z string) m user rnd f k,
  listing_ok ls d /\ valid_graph old /\ valid_graph g /\ @load Z string string f d = Ok (old, m) /\
  let f' := crash k (snd (save ls sub d 0 g user true rnd f)) f in
  entry_exists f' d = true /\
  forall raw finish size resume rnd', value (build_graph raw finish user ls sub d size true resume rnd') f' = Err CacheError
    /\ after (build_graph raw finish user ls sub d size true resume rnd') f' = f'.
Proof.
  exists (list_dir ["e"%string]), no_sub, ["e"%string], g3, g2. eexists. exists "u"%string, "r"%string,
    (after (save (list_dir ["e"%string]) no_sub ["e"%string] 0 g3 "u"%string true "r"%string) (fun _ => None)), 3%nat.
  split; [apply list_dir_ok|]. split; [exact g3_valid|]. split; [exact g2_valid|].
  split; [vm_compute; reflexivity|]. split; [vm_compute; reflexivity|].
  intros raw finish size resume rnd'. split; reflexivity.
Qed.

(* ------------------------------------------------------------------------------------ C51 *)
(* one attempt at build_graph(cache=True): any resume flag, temporary names, directory order, shard size,
   killed after any number of steps *)
Record build_attempt W M U := { b_ls : fs (gfile W M U) -> list string; b_sub : fs (gfile W M U) -> string -> list path;
  b_size : Z; b_resume : bool; b_name : string; b_names : Z -> string; b_killed_at : nat }.
Arguments b_ls {W M U}. Arguments b_sub {W M U}. Arguments b_size {W M U}. Arguments b_resume {W M U}.
Arguments b_name {W M U}. Arguments b_names {W M U}. Arguments b_killed_at {W M U}.
Definition attempt_ok {W M U} (d : path) (a : build_attempt W M U) : Prop := listing_ok (b_ls a) d /\ 0 <= b_size a.
Section Run.
Context {W M U : Type}.
Variables (part : list dist -> Z -> list Z) (argsort : list dist -> list Z) (val : Z -> Z) (D : Z -> Z -> dist)
  (n k chunk : Z) (directed : bool) (meta : M) (post : list (edge * Z) -> result (list edge * option (list W)))
  (user : U) (d : path).
Definition cached_build (a : build_attempt W M U) : prog (gfile W M U) (graph W M) :=
  build_graph (raw_knn part argsort val D n k chunk (b_resume a) (b_names a)) (finish_graph n directed meta post)
    user (b_ls a) (b_sub a) d (b_size a) true (b_resume a) (b_name a).
Definition uncached_build (a : build_attempt W M U) : prog (gfile W M U) (graph W M) :=
  build_graph (raw_knn part argsort val D n k chunk (b_resume a) (b_names a)) (finish_graph n directed meta post)
    user (b_ls a) (b_sub a) d (b_size a) false (b_resume a) (b_name a).
Definition killed_build (f : fs (gfile W M U)) (a : build_attempt W M U) : fs (gfile W M U) :=
  crash (b_killed_at a) (snd (cached_build a f)) f.
End Run.

Lemma finish_valid {W M} n b meta post l (g : graph W M) : finish_graph n b meta post l = Ok g -> valid_graph g.
Proof.
  unfold finish_graph. destruct (post l) as [[e w]|er]; [|discriminate]. cbn. intros H. apply (mk_graph_ok n e w b meta g H).
Qed.

Lemma killed_inv {W M U : Type} part argsort val D n k chunk directed (meta : M)
    (post : list (edge * Z) -> result (list edge * option (list W))) (user : U) d f0 attempts :
  0 <= n -> 0 < chunk -> Forall (attempt_ok d) attempts -> (forall p, f0 (d ++ p) = None) ->
  inv part argsort val D n k chunk (finish_graph n directed meta post) d
    (fold_left (killed_build part argsort val D n k chunk directed meta post user d) attempts f0).
Proof.
  intros Hn Hc Ha H0.
  assert (Hi0 : inv part argsort val D n k chunk (finish_graph n directed meta post) d f0).
  { left. split; [apply H0|]. intros x y. left. rewrite <- !app_assoc. apply H0. }
  clear H0. revert f0 Hi0. induction Ha as [|x r [Hx1 Hx2] _ IH]; intros f0 Hi0; [exact Hi0|].
  apply IH. unfold killed_build, cached_build.
  apply (build_spec part argsort val D n k chunk Hn Hc _ (fun l g => finish_valid n directed meta post l g) user d
           (b_ls x) (b_sub x) (b_size x) (b_resume x) (b_name x) (b_names x) f0 Hx1 Hx2 Hi0).
Qed.

(* after any sequence of killed builds in an empty cache entry, a cached build gives what an uncached build
   gives, error or graph, and a second cached build gives it again *)
Theorem C51_cached_build_equals_uncached : forall (W M U : Type) part argsort val D n k chunk directed (meta : M)
    (post : list (edge * Z) -> result (list edge * option (list W))) (user : U) d f0 attempts a a' f,
  0 <= n -> 0 < chunk -> Forall (attempt_ok d) attempts -> attempt_ok d a -> attempt_ok d a' ->
  (forall p, f0 (d ++ p) = None) ->
  let build := cached_build part argsort val D n k chunk directed meta post user d in
  let f1 := fold_left (killed_build part argsort val D n k chunk directed meta post user d) attempts f0 in
  let plain := value (uncached_build part argsort val D n k chunk directed meta post user d a) f in
  value (build a) f1 = plain /\ value (build a') (after (build a) f1) = plain.
Proof.
  intros W M U part argsort val D n k chunk b meta post user d f0 atts a a' f Hn Hc Ha [Hl Hs] [Hl' Hs'] H0 build f1 plain.
  set (fin := finish_graph n b meta post).
  assert (Hfin : forall l g, fin l = Ok g -> valid_graph g) by (intros l g; apply finish_valid).
  assert (Hplain : plain = expected part argsort val D n k chunk fin).
  { unfold plain, uncached_build, build_graph, value. erewrite pbind_val by reflexivity. cbn [andb fst].
    erewrite pbind_val by reflexivity. cbn [fst]. unfold expected.
    cbn [raw_knn]. unfold plift at 1. unfold pbind at 1. cbn [snd]. change (run [] ?x) with x.
    destruct (knn_numpy part argsort val D n k false chunk) as [l|e]; [|reflexivity]. cbn [bind]. fold fin.
    unfold plift, pbind. destruct (fin l); reflexivity. }
  assert (Hi : inv part argsort val D n k chunk fin d f1) by (apply killed_inv; assumption).
  destruct (build_spec part argsort val D n k chunk Hn Hc fin Hfin user d (b_ls a) (b_sub a) (b_size a) (b_resume a)
             (b_name a) (b_names a) f1 Hl Hs Hi) as (Hv & Hcr & _).
  rewrite Hplain. split; [exact Hv|].
  assert (Hi2 : inv part argsort val D n k chunk fin d (after (build a) f1)).
  { unfold after. rewrite <- (crash_all (List.length (snd (build a f1)))) by lia. apply Hcr. }
  apply (build_spec part argsort val D n k chunk Hn Hc fin Hfin user d (b_ls a') (b_sub a') (b_size a') (b_resume a')
             (b_name a') (b_names a') _ Hl' Hs' Hi2).
Qed.
(* after a successful cached build the entry can be loaded and holds that graph, and the next cached build
   changes nothing on disk *)
Theorem C51_entry_saved : forall (W M U : Type) part argsort val D n k chunk directed (meta : M)
    (post : list (edge * Z) -> result (list edge * option (list W))) (user : U) d f0 attempts a a' g,
  0 <= n -> 0 < chunk -> Forall (attempt_ok d) attempts -> attempt_ok d a -> attempt_ok d a' ->
  (forall p, f0 (d ++ p) = None) ->
  let build := cached_build part argsort val D n k chunk directed meta post user d in
  let f1 := fold_left (killed_build part argsort val D n k chunk directed meta post user d) attempts f0 in
  value (build a) f1 = Ok g ->
  (exists m, load (after (build a) f1) d = Ok (g, m)) /\ snd (build a' (after (build a) f1)) = [].
Proof.
  intros W M U part argsort val D n k chunk b meta post user d f0 atts a a' g Hn Hc Ha [Hl Hs] [Hl' Hs'] H0 build f1 Hg.
  set (fin := finish_graph n b meta post).
  assert (Hfin : forall l g, fin l = Ok g -> valid_graph g) by (intros l h; apply finish_valid).
  assert (Hi : inv part argsort val D n k chunk fin d f1) by (apply killed_inv; assumption).
  destruct (build_spec part argsort val D n k chunk Hn Hc fin Hfin user d (b_ls a) (b_sub a) (b_size a) (b_resume a)
             (b_name a) (b_names a) f1 Hl Hs Hi) as (Hv & _ & Hload).
  assert (He : expected part argsort val D n k chunk fin = Ok g) by (rewrite <- Hv; exact Hg).
  destruct (Hload g He) as [m Hm]. split; [exists m; exact Hm|].
  set (f2 := after (build a) f1) in *. change (load f2 d = Ok (g, m)) in Hm.
  unfold build, cached_build, build_graph. erewrite pbind_val by reflexivity. cbn [andb fst snd app].
  unfold entry_exists, exists_path. unfold load in Hm.
  destruct (f2 (d ++ ["manifest.json"%string])) eqn:Em; [reflexivity|discriminate].
Qed.

(* build_graph never caches an unfinished graph, but only because it saves into entries that have no
   manifest; without a cache the call touches no file *)
Theorem C51_uncached_touches_nothing : forall (W M U : Type) part argsort val D n k chunk directed (meta : M)
    (post : list (edge * Z) -> result (list edge * option (list W))) (user : U) d a f,
  snd (uncached_build part argsort val D n k chunk directed meta post user d a f) = [].
Proof.
  intros. unfold uncached_build, build_graph. erewrite pbind_val by reflexivity. cbn [andb fst snd app].
  erewrite pbind_val by reflexivity. cbn [fst snd app raw_knn]. unfold plift at 1. unfold pbind at 1.
  destruct (knn_numpy part argsort val D n k false chunk) as [l|e]; [|reflexivity].
  unfold plift, pbind. destruct (finish_graph n directed meta post l); reflexivity.
Qed.

Definition ex_D (i j : Z) : dist := Some (Z.abs (i * i - j * j)).
Definition ex_attempt (resume : bool) (killed : nat) : build_attempt Z string string :=
  {| b_ls := list_dir ["e"%string]; b_sub := no_sub; b_size := 3; b_resume := resume; b_name := "r"%string;
     b_names := (fun s => if s =? 0 then "x"%string else "y"%string); b_killed_at := killed |}.
Example C51_example :
  let post := fun raw : list (edge * Z) => Ok (map fst raw, Some (map snd raw)) in
  let build := cached_build ref_part ref_argsort (fun x => x) ex_D 4 1 2 true "m"%string post "u"%string ["e"%string] in
  let f1 := fold_left (killed_build ref_part ref_argsort (fun x => x) ex_D 4 1 2 true "m"%string post "u"%string ["e"%string])
              [ex_attempt true 7; ex_attempt true 15] (fun _ => None) in
  Forall (attempt_ok ["e"%string]) [ex_attempt true 7; ex_attempt true 15] /\
  exists_path f1 ["e"; "_work"; "knn"; "knn_0_2.npz"]%string = true /\
  value (build (ex_attempt true 0)) f1 =
    Ok {| g_n := 4; g_edges := [(0,1); (1,0); (2,1); (3,2)]; g_w := Some [1; 1; 3; 5]; g_directed := true; g_meta := "m"%string |}.
Proof.
  cbv zeta. split; [repeat constructor; try apply list_dir_ok; cbn; lia|]. split; vm_compute; reflexivity.
Qed.

Print Assumptions C26_round_trip.
Print Assumptions C26_round_trip_no_overwrite.
Print Assumptions C26_shard_size_irrelevant.
Print Assumptions C26_negative_shard_refuted.
Print Assumptions C26_stale_weights_refuted.
Print Assumptions C27_first_save.
Print Assumptions C27_overwrite_crash_partial.
Print Assumptions C27_overwrite_crash_without_weight_file.
Print Assumptions C27_overwrite_loses_weights_refuted.
Print Assumptions C27_unreadable_entry_refuted.
Print Assumptions C51_cached_build_equals_uncached.
Print Assumptions C51_entry_saved.
Print Assumptions C51_uncached_touches_nothing.
