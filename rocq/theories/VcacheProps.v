(* C149: the cache of graph views.  C150: the fingerprint of a matrix as the key of a cached graph. *)
From Coq Require Import String Ascii QArith Lia ZifyBool ZifyNat.
From Verif Require Import Prelude VcacheModel VcacheSpec VcacheProofs.
Local Open Scope string_scope.
Local Open Scope Z_scope.
Local Open Scope list_scope.
Local Notation length := List.length.

Section Views.
Context {X Y M Spec : Type}.
Variable payload_fp : nat * list (Z * Z) -> string.
Variable views_fp : string * Spec * Z -> string.
Variable valid_spec : Spec -> bool.
Variable compute : nat * list (Z * Z) * option (list Q) -> X -> Spec -> Z -> result (list (string * M)).
Notation run := (graph_to_views X Y M Spec payload_fp views_fp valid_spec compute).
Notation hist := (history X Y M Spec payload_fp views_fp valid_spec compute).
Notation empty := (fun _ : string => nothing M Spec).

(* C149: calls that share a cache directory, some of them killed while saving, answer as they would without a cache, as long
   as one fingerprint stands for one graph and one X *)
Theorem C149_transparent cs c r : collision_free views_fp -> one_input payload_fp (map fst cs) ->
  In (c, r) (snd (hist empty cs)) -> r = snd (run empty (uncached c) None).
Proof.
  intros HI HC H. refine (history_answers payload_fp views_fp valid_spec compute empty [] cs HI _ _ c r H).
  - intros k m E. discriminate E.
  - rewrite app_nil_r. apply (coherent_perm payload_fp _ (map fst cs)); [|exact HC]. intros a Ha. now apply in_rev.
Qed.
(* C149: without a cache: the views as computed, with the labels of the dataset *)
Theorem C149_uncached s c : c_cache _ _ _ c = false ->
  fst (run s c None) = s /\
  (valid_spec (c_spec _ _ _ c) = true -> forall v, call_compute X Y M Spec compute c = Ok v -> exists r, snd (run s c None) = Ok r /\ v_views _ _ _ r = v /\ v_y _ _ _ r = n_y _ _ (c_data _ _ _ c)) /\
  (forall r, snd (run s c None) = Ok r -> valid_spec (c_spec _ _ _ c) = true /\ call_compute X Y M Spec compute c = Ok (v_views _ _ _ r)).
Proof.
  intros HC. unfold graph_to_views. rewrite HC. cbn [andb]. destruct (valid_spec (c_spec _ _ _ c)); cbn [negb]; [|split; [reflexivity|]; split; [intros [=]|intros r [=]]].
  destruct (call_compute X Y M Spec compute c) as [v|e] eqn:E; cbn [fst snd]; (split; [reflexivity|]).
  - split; [|intros r [= <-]; now split]. intros _ v' [= <-]. eexists. split; [reflexivity|]. now split.
  - split; [intros _ v' [=]|intros r [=]].
Qed.
(* C149: labels and masks are those of the dataset of the call, never cached ones *)
Theorem C149_labels s c killed r : snd (run s c killed) = Ok r -> v_y _ _ _ r = n_y _ _ (c_data _ _ _ c).
Proof.
  unfold graph_to_views. destruct (negb (valid_spec (c_spec _ _ _ c))); [discriminate|]. destruct (c_cache _ _ _ c && entry_exists _ _ (s (call_key X Y Spec payload_fp views_fp c))); cbn [snd].
  - unfold load_entry. destruct (e_man _ _ _); [|discriminate]. destruct (e_npz _ _ _); try discriminate. now intros [= <-].
  - destruct (call_compute X Y M Spec compute c) as [v|e]; [|discriminate]. destruct (c_cache _ _ _ c); cbn [snd]; now intros [= <-].
Qed.
(* C149: two calls share an entry exactly when their graphs have one fingerprint and the spec and the seed are the same *)
Theorem C149_key c c' : collision_free views_fp ->
  call_key X Y Spec payload_fp views_fp c = call_key X Y Spec payload_fp views_fp c' <->
  c_spec _ _ _ c = c_spec _ _ _ c' /\ c_seed _ _ _ c = c_seed _ _ _ c' /\ exists f, identifies payload_fp (n_graph _ _ (c_data _ _ _ c)) f /\ identifies payload_fp (n_graph _ _ (c_data _ _ _ c')) f.
Proof.
  intros HI. unfold call_key. split.
  - intros E. apply HI in E. injection E as E1 E2 E3. split; [exact E2|]. split; [exact E3|]. eexists. split; [apply identifies_ok; reflexivity|]. now apply identifies_ok.
  - intros (-> & -> & f & H1 & H2). apply identifies_ok in H1 as ->. apply identifies_ok in H2 as ->. reflexivity.
Qed.
(* C149: a save killed anywhere leaves an entry that loads to the old views, to the new ones, or not at all *)
Theorem C149_save_crash npz_first v m n (e : entry M Spec) (y : Y) r : load_entry Y M Spec (run_steps _ _ (firstn n (save_steps M Spec true npz_first v m)) e) y = Ok r ->
  load_entry Y M Spec e y = Ok r \/ r = {| v_views := v; v_y := y; v_meta := m |}.
Proof.
  unfold run_steps, save_steps, load_entry. destruct npz_first; cbn [app].
  all: destruct n as [|[|[|[|[|n]]]]]; cbn [firstn fold_left e_man e_npz]; try (rewrite firstn_nil; cbn [fold_left e_man e_npz]); try discriminate; try (now left); try (intros [= <-]; now right).
  all: destruct (e_man _ _ e); discriminate.
Qed.
(* C149: a save that is not killed can be loaded *)
Theorem C149_round_trip ov npz_first v m (e : entry M Spec) (y : Y) :
  load_entry Y M Spec (run_steps _ _ (save_steps M Spec ov npz_first v m) e) y = Ok {| v_views := v; v_y := y; v_meta := m |}.
Proof. rewrite steps_all. reflexivity. Qed.
End Views.

(* a computation that uses X and the weights, fingerprints that cannot collide *)
Definition vx_compute (g : nat * list (Z * Z) * option (list Q)) (x : Z) (sp : unit) (seed : Z) : result (list (string * Z)) :=
  Ok [("attr", x); ("diffusion", x + lenZ (snd (fst g)) + match snd g with Some w => Z.of_nat (List.length (filter (fun q => Qeq_bool q 1) w)) | None => 0 end)].
Fixpoint vx_text (l : list ascii) : string := match l with [] => "" | c :: r => String c (vx_text r) end.
Definition vx_digit (b : bool) : string := if b then "1" else "0".
Fixpoint vx_pos (p : positive) : string := match p with xH => "e" | xO q => String "0" (vx_pos q) | xI q => String "1" (vx_pos q) end.
Definition vx_z (z : Z) : string := match z with Z0 => "z" | Zpos p => String "p" (vx_pos p) | Zneg p => String "n" (vx_pos p) end.
Fixpoint vx_edges (l : list (Z * Z)) : string := match l with [] => "." | (a, b) :: r => (vx_z a ++ vx_z b ++ vx_edges r)%string end.
Definition vx_payload (p : nat * list (Z * Z)) : string := (vx_z (Z.of_nat (fst p)) ++ vx_edges (snd p))%string.
(* the key spelled out: the seed, then the fingerprint *)
Definition vx_views_fp (p : string * unit * Z) : string := (vx_z (snd p) ++ fst (fst p))%string.
Lemma vx_pos_inj p : forall q s t, (vx_pos p ++ s)%string = (vx_pos q ++ t)%string -> p = q /\ s = t.
Proof. induction p as [p IH|p IH|]; intros [q|q|] s t E; cbn in E; try discriminate; injection E as E; try (apply IH in E as (-> & ->)); subst; now split. Qed.
Lemma vx_z_inj z : forall z' s t, (vx_z z ++ s)%string = (vx_z z' ++ t)%string -> z = z' /\ s = t.
Proof. destruct z as [|p|p]; intros [|q|q] s t E; cbn in E; try discriminate; injection E as E; try (apply vx_pos_inj in E as (-> & ->)); subst; now split. Qed.
Example vx_views_fp_ok : collision_free vx_views_fp.
Proof. intros ((g, []), z) ((g', []), z') E. unfold vx_views_fp in E. cbn [fst snd] in E. apply vx_z_inj in E as (-> & ->). reflexivity. Qed.
Definition vx_graph (n : nat) (e : list (Z * Z)) (w : option (list Q)) (f : fp_entry) : graph := {| g_nodes := n; g_edges := e; g_weights := w; g_fp := f |}.
Definition vx_call (g : graph) (x : Z) (y : Z) : call Z Z unit := {| c_data := {| n_graph := g; n_x := x; n_y := y |}; c_spec := tt; c_seed := 0; c_cache := true; c_npz_first := true |}.
Notation vx_run := (graph_to_views Z Z Z unit vx_payload vx_views_fp (fun _ => true) vx_compute).
Notation vx_hist := (history Z Z Z unit vx_payload vx_views_fp (fun _ => true) vx_compute).
Notation vx_empty := (fun _ : string => nothing Z unit).
Definition vx_views {Y Sp} (r : result (views Y Z Sp)) : list (string * Z) := match r with Ok v => v_views _ _ _ v | Err _ => [] end.
(* two calls on one graph with other labels, the first one killed while it writes the views *)
Example C149_transparent_ex : let g := vx_graph 2 [(0, 1)] None (Fp "abc") in
  one_input vx_payload (map fst [(vx_call g 5 1, Some 3%nat); (vx_call g 5 2, None); (vx_call g 5 3, None)]) /\
  map (fun cr => vx_views (snd cr)) (snd (vx_hist vx_empty [(vx_call g 5 1, Some 3%nat); (vx_call g 5 2, None); (vx_call g 5 3, None)])) = [[("attr", 5); ("diffusion", 6)]; [("attr", 5); ("diffusion", 6)]].
Proof.
  intros g. split; [|vm_compute; reflexivity]. intros c c' f [<-|[<-|[<-|[]]]] [<-|[<-|[<-|[]]]] _ _; repeat split.
Qed.
(* C149, refuted: the key leaves X out: the views of another X on the same graph come back *)
Theorem C149_features_refuted : exists g x x', let h := vx_hist vx_empty [(vx_call g x 0, None); (vx_call g x' 0, None)] in
  exists c r, In (c, r) (snd h) /\ n_x _ _ (c_data _ _ _ c) = x' /\ x <> x' /\ vx_views r = [("attr", x); ("diffusion", x + 1)] /\ vx_views (snd (vx_run vx_empty (uncached c) None)) = [("attr", x'); ("diffusion", x' + 1)].
Proof. exists (vx_graph 2 [(0, 1)] None (Fp "abc")), 5, 7. cbn zeta. eexists _, _. split; [right; left; reflexivity|]. split; [reflexivity|]. split; [discriminate|]. split; vm_compute; reflexivity. Qed.
(* C149, refuted: without a fingerprint in meta, edges after the thousandth and all weights are left out of the key *)
Theorem C149_edges_refuted : exists e w w', let h := vx_hist vx_empty [(vx_call (vx_graph 2 e w NoFp) 5 0, None); (vx_call (vx_graph 2 (e ++ [(1, 0)]) w' NoFp) 5 0, None)] in
  exists c r, In (c, r) (snd h) /\ g_edges (n_graph _ _ (c_data _ _ _ c)) = e ++ [(1, 0)] /\ vx_views r <> vx_views (snd (vx_run vx_empty (uncached c) None)).
Proof. exists (repeat (0, 1) 1000), None, None. cbn zeta. eexists _, _. split; [right; left; reflexivity|]. split; [reflexivity|]. vm_compute. discriminate. Qed.
Theorem C149_weights_refuted : exists w w', let h := vx_hist vx_empty [(vx_call (vx_graph 2 [(0, 1)] (Some [w]) NoFp) 5 0, None); (vx_call (vx_graph 2 [(0, 1)] (Some [w']) NoFp) 5 0, None)] in
  exists c r, In (c, r) (snd h) /\ g_weights (n_graph _ _ (c_data _ _ _ c)) = Some [w'] /\ vx_views r <> vx_views (snd (vx_run vx_empty (uncached c) None)).
Proof. exists 1%Q, 2%Q. cbn zeta. eexists _, _. split; [right; left; reflexivity|]. split; [reflexivity|]. vm_compute. discriminate. Qed.
(* C149, refuted: a fingerprint that is None counts as the text None, so all such graphs share one entry *)
Theorem C149_none_refuted : exists e e', let h := vx_hist vx_empty [(vx_call (vx_graph 2 e None NoneFp) 5 0, None); (vx_call (vx_graph 2 e' None NoneFp) 5 0, None)] in
  exists c r, In (c, r) (snd h) /\ g_edges (n_graph _ _ (c_data _ _ _ c)) = e' /\ vx_views r <> vx_views (snd (vx_run vx_empty (uncached c) None)).
Proof. exists [(0, 1)], []. cbn zeta. eexists _, _. split; [right; left; reflexivity|]. split; [reflexivity|]. vm_compute. discriminate. Qed.
(* C149, refuted: after an overwriting save was killed the entry can exist and fail to load, and every cached call fails *)
Theorem C149_stuck_refuted : exists (e e' : entry Z unit) m v n, e = {| e_npz := Whole v; e_man := Some m |} /\ e' = run_steps _ _ (firstn n (save_steps Z unit true true v m)) e /\
  entry_exists _ _ e' = true /\ (forall y : Z, load_entry Z Z unit e' y = Err CacheError) /\
  forall s c, s (call_key Z Z unit vx_payload vx_views_fp c) = e' -> c_cache _ _ _ c = true -> snd (vx_run s c None) = Err CacheError /\ fst (vx_run s c None) = s.
Proof.
  exists {| e_npz := Whole [("attr", 5)]; e_man := Some {| mt_fp := "k"; mt_graph := "g"; mt_spec := tt; mt_seed := 0 |} |}. eexists. exists {| mt_fp := "k"; mt_graph := "g"; mt_spec := tt; mt_seed := 0 |}, [("attr", 5)], 1%nat. split; [reflexivity|]. split; [reflexivity|]. split; [reflexivity|]. split; [reflexivity|].
  intros s c E HC. unfold graph_to_views. cbn [negb]. rewrite HC, E. split; reflexivity.
Qed.
(* C149, refuted: with overwrite=False a killed save pairs the old manifest with the new views *)
Theorem C149_mixed_refuted : exists (e : entry Z unit) m m' v v' n y, load_entry Z Z unit e y = Ok {| v_views := v; v_y := y; v_meta := m |} /\ v <> v' /\ m <> m' /\
  load_entry Z Z unit (run_steps _ _ (firstn n (save_steps Z unit false true v' m')) e) y = Ok {| v_views := v'; v_y := y; v_meta := m |}.
Proof.
  exists {| e_npz := Whole [("attr", 5)]; e_man := Some {| mt_fp := "k"; mt_graph := "g"; mt_spec := tt; mt_seed := 0 |} |}, {| mt_fp := "k"; mt_graph := "g"; mt_spec := tt; mt_seed := 0 |}, {| mt_fp := "k"; mt_graph := "g"; mt_spec := tt; mt_seed := 1 |}, [("attr", 5)], [("attr", 6)], 2%nat, 0.
  split; [reflexivity|]. split; [discriminate|]. split; [discriminate|]. reflexivity.
Qed.

(* ----- C150 ----- *)
Section Build.
Context {Spec G : Type}.
Variable sha : list ascii -> string.
Variable max_bytes : nat.
Variable graph_key : string * option string * Spec * Z -> string.
Variable build : dense -> Spec -> Z -> result G.
Notation fp := (fingerprint_array sha max_bytes).
Variable rows_of : string -> nat.
Variable width_of : string -> string -> nat.
Notation laid := (laid_out rows_of width_of).

(* C150: the fingerprint of a matrix is that of its shape, its type and its first and last max_bytes rows (rows, not bytes) *)
Theorem C150_fingerprint a b : collision_free sha -> (0 < max_bytes)%nat -> laid a -> laid b -> fp a = fp b <-> agree_at_ends max_bytes a b.
Proof.
  intros HS HP HA HB. rewrite <- (digest_iff _ _ _ _ _ HP HA HB). unfold fingerprint_array. split; [apply HS|now intros ->].
Qed.
(* C150: so it identifies every matrix of at most 2 * max_bytes rows *)
Theorem C150_identifies a b : collision_free sha -> (0 < max_bytes)%nat -> laid a -> laid b -> (length (a_rows a) <= 2 * max_bytes)%nat -> fp a = fp b -> a = b.
Proof.
  intros HS HP HA HB HL E. apply (C150_fingerprint a b HS HP HA HB) in E as (E1 & E2 & H1 & H2). assert (HR : a_rows a = a_rows b).
  { destruct (Nat.le_gt_cases (bytes_of a) max_bytes) as [H|H]; [exact (H1 H)|]. apply nth_error_ext_l; [destruct HA as (-> & _), HB as (-> & _); now rewrite E1|]. intros i Hi. apply (H2 H i Hi). lia. }
  destruct a, b; cbn in *. congruence.
Qed.
(* C150: cached builds answer as uncached ones when equal fingerprints mean equal matrices *)
Theorem C150_transparent rs : collision_free graph_key ->
  (forall r r', In r rs -> In r' rs -> ds_fp Spec sha max_bytes r = ds_fp Spec sha max_bytes r' -> r_x _ r = r_x _ r') ->
  builds Spec G sha max_bytes graph_key build [] rs = map (fun r => build (r_x _ r) (r_spec _ r) (r_seed _ r)) rs.
Proof.
  intros HK. assert (HG : forall rs s done, (forall r r', In r (rs ++ done) -> In r' (rs ++ done) -> ds_fp Spec sha max_bytes r = ds_fp Spec sha max_bytes r' -> r_x _ r = r_x _ r') ->
    (forall k g, In (k, g) s -> exists r, In r done /\ request_key Spec sha max_bytes graph_key r = k /\ build (r_x _ r) (r_spec _ r) (r_seed _ r) = Ok g) ->
    builds Spec G sha max_bytes graph_key build s rs = map (fun r => build (r_x _ r) (r_spec _ r) (r_seed _ r)) rs).
  { clear rs. induction rs as [|r rs IH]; intros s done HD HS; [reflexivity|]. cbn [builds map]. unfold build_graph. destruct (find (fun kv => String.eqb (request_key Spec sha max_bytes graph_key r) (fst kv)) s) as [(k, g)|] eqn:EF.
    - apply find_some in EF as (Hin & EK). cbn [fst] in EK. apply String.eqb_eq in EK. destruct (HS k g Hin) as (r' & Hr' & Ek & EB). rewrite <- EK in Ek. unfold request_key in Ek. apply HK in Ek. injection Ek as E1 E2 E3 E4. f_equal.
      + cbn [snd]. rewrite <- EB, E3, E4. rewrite (HD r' r); [reflexivity|apply in_app_iff; now right|now left|exact E1].
      + apply (IH s (r :: done)); [|].
        * intros a b Ha Hb. apply HD; apply in_app_iff in Ha, Hb; cbn [app In]; rewrite ?in_app_iff; (cbn [In] in *; tauto).
        * intros k' g' H'. destruct (HS k' g' H') as (r0 & H0 & R). exists r0. split; [now right|exact R].
    - destruct (build (r_x _ r) (r_spec _ r) (r_seed _ r)) as [g|e] eqn:EB; f_equal; apply (IH _ (r :: done)).
      + intros a b Ha Hb. apply HD; apply in_app_iff in Ha, Hb; cbn [app In]; rewrite ?in_app_iff; (cbn [In] in *; tauto).
      + intros k' g' [[= <- <-]|H']; [exists r; split; [now left|]; split; [reflexivity|exact EB]|]. destruct (HS k' g' H') as (r0 & H0 & R). exists r0. split; [now right|exact R].
      + intros a b Ha Hb. apply HD; apply in_app_iff in Ha, Hb; cbn [app In]; rewrite ?in_app_iff; (cbn [In] in *; tauto).
      + intros k' g' H'. destruct (HS k' g' H') as (r0 & H0 & R). exists r0. split; [now right|exact R]. }
  intros HD. apply (HG rs [] []); [rewrite app_nil_r; exact HD|intros k g []].
Qed.
(* C150, refuted: whatever the hash, two matrices that differ in a middle row have one fingerprint *)
Theorem C150_middle_refuted : (0 < max_bytes)%nat -> exists a b, (forall r, In r (a_rows a ++ a_rows b) -> length r = 1%nat) /\ length (a_rows a) = (2 * max_bytes + 1)%nat /\ length (a_rows b) = (2 * max_bytes + 1)%nat /\
  a_shape a = a_shape b /\ a_dtype a = a_dtype b /\ a <> b /\ fp a = fp b.
Proof.
  intros HP. set (z := [zero]). set (o := [one]). remember max_bytes as n eqn:En.
  assert (HL : forall m, length ((repeat z n ++ [m]) ++ repeat z n) = (2 * n + 1)%nat) by (intros m; rewrite !app_length, !repeat_length; cbn [length]; lia).
  assert (HW : forall m, length m = 1%nat -> forall r, In r ((repeat z n ++ [m]) ++ repeat z n) -> length r = 1%nat).
  { intros m Hm r Hr. rewrite !in_app_iff in Hr. cbn [In] in Hr. destruct Hr as [[H|[<-|[]]]|H]; [apply repeat_spec in H as ->; reflexivity|exact Hm|apply repeat_spec in H as ->; reflexivity]. }
  exists {| a_shape := "(n, 1)"; a_dtype := "uint8"; a_rows := (repeat z n ++ [z]) ++ repeat z n |}, {| a_shape := "(n, 1)"; a_dtype := "uint8"; a_rows := (repeat z n ++ [o]) ++ repeat z n |}. cbn [a_rows a_shape a_dtype].
  split; [|split; [apply HL|split; [apply HL|split; [reflexivity|split; [reflexivity|split]]]]].
  - intros r Hr. apply in_app_iff in Hr as [Hr|Hr]; eapply HW; try exact Hr; reflexivity.
  - intros [= E]. apply app_inv_tail in E. apply app_inv_head in E. discriminate.
  - unfold fingerprint_array. f_equal. unfold digest_bytes. cbn [a_rows a_shape a_dtype]. rewrite !(concat_length 1), !HL by (apply HW; reflexivity).
    replace (Nat.leb ((2 * n + 1) * 1) n) with false by (symmetry; apply Nat.leb_gt; lia). replace (Nat.eqb n 0) with false by (symmetry; apply Nat.eqb_neq; lia).
    assert (H1 : forall m : list ascii, firstn n ((repeat z n ++ [m]) ++ repeat z n) = repeat z n).
    { intros m. rewrite <- app_assoc. rewrite firstn_app, repeat_length, Nat.sub_diag, firstn_O, app_nil_r. apply firstn_all2. now rewrite repeat_length. }
    assert (H2 : forall m : list ascii, skipn (2 * n + 1 - n) ((repeat z n ++ [m]) ++ repeat z n) = repeat z n).
    { intros m. rewrite skipn_app. rewrite skipn_all2 by (rewrite app_length, repeat_length; cbn [length]; lia). rewrite app_length, repeat_length. cbn [length app]. replace (2 * n + 1 - n - (n + 1))%nat with 0%nat by lia. reflexivity. }
    now rewrite !H1, !H2.
Qed.
(* C150, refuted: a dataset_fingerprint that is given is believed: the graph of another X comes back *)
Theorem C150_given_refuted a b spec seed s g : s <> "" -> build a spec seed = Ok g ->
  builds Spec G sha max_bytes graph_key build [] [{| r_x := a; r_spec := spec; r_seed := seed; r_ds := Some s; r_pre := None |}; {| r_x := b; r_spec := spec; r_seed := seed; r_ds := Some s; r_pre := None |}] = [Ok g; Ok g].
Proof.
  intros HS HB. cbn [builds]. unfold build_graph at 1. cbn [find r_x r_spec r_seed]. rewrite HB. unfold build_graph. cbn [find fst snd]. unfold request_key, ds_fp. cbn [r_ds r_x r_spec r_seed r_pre].
  apply String.eqb_neq in HS. rewrite HS. rewrite String.eqb_refl. reflexivity.
Qed.
(* C150, refuted: in the benchmark the key does not tell whether the test rows are in: an experiment with them gets the cached
   graph of one without them *)
Theorem C150_bench_refuted stack train test ds pre spec seed g : ds <> "" -> build train spec seed = Ok g ->
  builds Spec G sha max_bytes graph_key build [] [bench_request Spec stack train test ds pre spec seed false; bench_request Spec stack train test ds pre spec seed true] = [Ok g; Ok g].
Proof.
  intros HS HB. cbn [builds]. unfold build_graph at 1. cbn [find bench_request r_x r_spec r_seed]. rewrite HB. unfold build_graph. cbn [find fst snd]. unfold request_key, ds_fp. cbn [bench_request r_ds r_x r_spec r_seed r_pre].
  apply String.eqb_neq in HS. rewrite HS. rewrite String.eqb_refl. reflexivity.
Qed.
End Build.
(* a hash that is the text itself, and a matrix of one byte per row *)
Example bx_sha_ok : collision_free string_of_list_ascii.
Proof. intros a b E. rewrite <- (list_ascii_of_string_of_list_ascii a), <- (list_ascii_of_string_of_list_ascii b). now rewrite E. Qed.
Definition bx_dense (l : list (list ascii)) : dense := {| a_shape := "(3, 1)"; a_dtype := "uint8"; a_rows := l |}.
Example C150_fingerprint_ex : let a := bx_dense [[zero]; [one]; [zero]] in let b := bx_dense [[zero]; [one]; [one]] in
  laid_out (fun _ => 3%nat) (fun _ _ => 1%nat) a /\ laid_out (fun _ => 3%nat) (fun _ _ => 1%nat) b /\ (length (a_rows a) <= 2 * 2)%nat /\ (2 < bytes_of a)%nat /\ fingerprint_array string_of_list_ascii 2 a <> fingerprint_array string_of_list_ascii 2 b.
Proof.
  cbn zeta. split; [|split; [|split; [cbn; lia|split; [cbn; lia|vm_compute; discriminate]]]].
  all: split; [reflexivity|]; split; [intros r [<-|[<-|[<-|[]]]]; reflexivity|]; split; cbn; intros H; decompose [or] H; try discriminate; assumption.
Qed.
Definition bx_key (p : string * option string * unit * Z) : string :=
  let '(f, pre, _, z) := p in (vx_z z ++ match pre with None => "n" | Some t => "s" ++ vx_z (Z.of_nat (String.length t)) ++ t end ++ f)%string.
Lemma bx_prefix (s : string) : forall t a b, String.length s = String.length t -> (s ++ a)%string = (t ++ b)%string -> s = t /\ a = b.
Proof. induction s as [|c s IH]; intros [|d t] a b HL E; cbn in HL; try discriminate; cbn in E; [now split|]. injection E as -> E. destruct (IH t a b) as (-> & ->); [congruence|exact E|now split]. Qed.
Lemma bx_assoc (a b c : string) : ((a ++ b) ++ c)%string = (a ++ b ++ c)%string.
Proof. induction a as [|x a IH]; [reflexivity|]. cbn. now rewrite IH. Qed.
Example bx_key_ok : collision_free bx_key.
Proof.
  intros (((f, pre), []), z) (((f', pre'), []), z') E. unfold bx_key in E. apply vx_z_inj in E as (-> & E). destruct pre as [t|], pre' as [t'|]; cbn in E; try discriminate.
  - injection E as E. rewrite !bx_assoc in E. apply vx_z_inj in E as (EL & E). apply bx_prefix in E as (-> & ->); [reflexivity|lia].
  - now injection E as ->.
Qed.
Definition bx_build (a : dense) (sp : unit) (z : Z) : result (list (list ascii)) := Ok (a_rows a).
Definition bx_req (a : dense) : request unit := {| r_x := a; r_spec := tt; r_seed := 0; r_ds := None; r_pre := None |}.
Example C150_transparent_ex : let a := bx_dense [[zero]; [one]; [zero]] in let b := bx_dense [[zero]; [one]; [one]] in
  (forall r r', In r [bx_req a; bx_req b; bx_req a] -> In r' [bx_req a; bx_req b; bx_req a] -> ds_fp unit string_of_list_ascii 2 r = ds_fp unit string_of_list_ascii 2 r' -> r_x _ r = r_x _ r') /\
  builds unit _ string_of_list_ascii 2 bx_key bx_build [] [bx_req a; bx_req b; bx_req a] = [Ok (a_rows a); Ok (a_rows b); Ok (a_rows a)].
Proof.
  cbn zeta. split; [|vm_compute; reflexivity]. intros r r' [<-|[<-|[<-|[]]]] [<-|[<-|[<-|[]]]] E; try reflexivity; vm_compute in E; discriminate.
Qed.

Print Assumptions C149_transparent.
Print Assumptions C149_uncached.
Print Assumptions C149_labels.
Print Assumptions C149_key.
Print Assumptions C149_save_crash.
Print Assumptions C149_round_trip.
Print Assumptions C149_features_refuted.
Print Assumptions C149_edges_refuted.
Print Assumptions C149_weights_refuted.
Print Assumptions C149_none_refuted.
Print Assumptions C149_stuck_refuted.
Print Assumptions C149_mixed_refuted.
Print Assumptions C150_fingerprint.
Print Assumptions C150_identifies.
Print Assumptions C150_transparent.
Print Assumptions C150_middle_refuted.
Print Assumptions C150_given_refuted.
Print Assumptions C150_bench_refuted.
