(* C164: the Hugging Face provider. *)
From Coq Require Import String Ascii Lia.
From Verif Require Import Prelude PyValue RegModel BundleProofs OmlModel OmlSpec OmlProofs ProvModel HfModel HfSpec HfProofs.
Local Open Scope string_scope.
Local Open Scope Z_scope.
Local Open Scope list_scope.
Local Notation length := List.length.

Section Props.
Variable o : Oracle.

(* name or name/config, with white space anywhere: the name is requested with the configuration of the reference, else with that of the options,
   else without one; the other settings come from the options. *)
Theorem C164_reference ref name config options : names ref name config ->
  let id := resolve o ref options in
  h_id id = name /\
  h_config id = match config with Some c => PStr (str c) | None => none_get options "config" end /\
  request_of id = (name, match config with Some c => Some (PStr (str c)) | None => match dget options "config" with Some PNone | None => None | Some v => Some v end end) /\
  (forall k, (k = "text_column" -> h_text id = get_else options k (PStr "text")) /\ (k = "label_column" -> h_label id = get_else options k (PStr "label")) /\
             (k = "prefer_test_split" -> h_prefer id = py_bool (get_else options k (PBool true))) /\
             (k = "max_train_samples" -> h_max_train id = none_get options k) /\ (k = "max_test_samples" -> h_max_test id = none_get options k) /\ (k = "seed" -> h_seed id = none_get options k)).
Proof.
  intros H; unfold resolve; rewrite (split_names _ _ _ H); cbv zeta; cbn [h_id h_config h_text h_label h_prefer h_max_train h_max_test h_seed]; split; [reflexivity|split; [reflexivity|split]].
  - unfold request_of; cbn [h_id h_config]; destruct config as [c|]; [reflexivity|]; unfold none_get; destruct (dget options "config") as [[]|]; reflexivity.
  - intros k; repeat split; intros ->; reflexivity.
Qed.

(* The canonical URI names the same data set and configuration again. *)
Theorem C164_uri ref options options' : let id := resolve o ref options in
  (h_config id = PNone -> none_get options' "config" = PNone -> exists r, h_uri id = ("hf:" ++ str r)%string /\ h_id (resolve o r options') = h_id id /\ h_config (resolve o r options') = h_config id /\ h_uri (resolve o r options') = h_uri id) /\
  (forall c, h_config id = PStr c -> clean (txt c) -> c <> "" -> exists r, h_uri id = ("hf:" ++ str r)%string /\ h_id (resolve o r options') = h_id id /\ h_config (resolve o r options') = h_config id /\ h_uri (resolve o r options') = h_uri id).
Proof.
  cbv zeta; assert (S : forall s, strip (strip s) = strip s) by (intros s; unfold strip at 2; rewrite strip_rstrip; apply strip_lstrip).
  assert (N : strip (fst (split_ref ref)) = fst (split_ref ref)) by (unfold split_ref; destruct (cut_slash (strip ref)) as [(k, v)|]; cbn [fst]; apply S).
  pose proof (split_no_slash ref) as Ns.
  assert (Hu : h_id (resolve o ref options) = fst (split_ref ref) /\ h_uri (resolve o ref options) = ("hf:" ++ str (fst (split_ref ref)) ++ (if py_bool (h_config (resolve o ref options)) then "/" ++ py_str o (h_config (resolve o ref options)) else ""))%string) by (unfold resolve; destruct (split_ref ref); split; reflexivity).
  destruct Hu as (-> & ->); set (name := fst (split_ref ref)) in *; split.
  - intros Hc Ho; exists name; rewrite Hc; cbn [py_bool]; split; [f_equal; now rewrite String_app_nil|].
    assert (R : split_ref name = (name, None)) by (unfold split_ref; rewrite N, cut_slash_none by exact Ns; reflexivity).
    unfold resolve; rewrite R; cbn [h_id h_config h_uri]; rewrite Ho; split; [reflexivity|split; reflexivity].
  - intros c Hc Hcl Nc; rewrite Hc; exists (name ++ "/"%char :: txt c).
    assert (R : split_ref (name ++ "/"%char :: txt c) = (name, Some (txt c))).
    { unfold split_ref; destruct (strip_slash name (txt c)) as (x & y & Es & Ex & Ey & Nx); rewrite Es, cut_slash_at by (apply Nx; exact Ns); rewrite Ex, Ey, N.
      rewrite (strip_clean (txt c)) by (apply clean_b; exact Hcl); destruct (txt c) eqn:Ec; [destruct c; [destruct (Nc eq_refl)|discriminate]|reflexivity]. }
    assert (B : py_bool (PStr c) = true) by (destruct c; [destruct (Nc eq_refl)|reflexivity]).
    unfold resolve; rewrite R; cbn [h_id h_config h_uri]; rewrite !str_txt, B; cbn [py_str]; split; [|split; [reflexivity|split; reflexivity]].
    f_equal; rewrite str_slash, str_txt; reflexivity.
Qed.

(* The samples and labels: those of the columns of the training split, and of the split for testing if there is one; without filter and limits they come as they are. *)
Theorem C164_splits {A} shuffle id cf mt me seed (ds : @source A) r x y o2 :
  let t := py_str o (h_text id) in let l := py_str o (h_label id) in
  has_split ds "train" r -> holds r t l x y -> test_split ds (h_prefer id) o2 ->
  (o2 = None -> load_hf o shuffle id cf mt me seed ds = load_splits shuffle cf mt me seed (x, y) None) /\
  (forall r2 x2 y2, o2 = Some r2 -> holds r2 t l x2 y2 -> load_hf o shuffle id cf mt me seed ds = load_splits shuffle cf mt me seed (x, y) (Some (x2, y2))) /\
  (cf = None -> mt = None -> me = None -> forall r2 x2 y2, o2 = Some r2 -> holds r2 t l x2 y2 -> load_hf o shuffle id cf mt me seed ds = Ok ((x, y), Some (x2, y2))).
Proof.
  cbv zeta; intros Hs Hh Ht; assert (T : forall r2 x2 y2, o2 = Some r2 -> holds r2 (py_str o (h_text id)) (py_str o (h_label id)) x2 y2 -> official_test ds (py_str o (h_text id)) (py_str o (h_label id)) (h_prefer id) = Ok (Some (x2, y2))).
  { intros r2 x2 y2 -> H2; apply (official_some ds _ _ _ r2); assumption. }
  unfold load_hf; rewrite (proj2 (extract_spec ds "train" _ _ r Hs x y) Hh); cbn [bind]; split; [intros ->; rewrite (official_none ds _ _ _ Ht); reflexivity|split].
  - intros r2 x2 y2 E H2; rewrite (T r2 x2 y2 E H2); reflexivity.
  - intros -> -> -> r2 x2 y2 E H2; rewrite (T r2 x2 y2 E H2); reflexivity.
Qed.
(* Missing training split or columns: a KeyError. *)
Theorem C164_missing {A} shuffle id cf mt me seed (ds : @source A) :
  let t := py_str o (h_text id) in let l := py_str o (h_label id) in
  ((~ exists r x y, has_split ds "train" r /\ holds r t l x y) -> load_hf o shuffle id cf mt me seed ds = Err KeyError) /\
  (forall r2, test_split ds (h_prefer id) (Some r2) -> (~ exists x y, holds r2 t l x y) -> load_hf o shuffle id cf mt me seed ds = Err KeyError).
Proof.
  cbv zeta; split.
  - intros H; unfold load_hf; rewrite (extract_missing ds "train" _ _ eq_refl H); reflexivity.
  - intros r2 Ht H; unfold load_hf; destruct (extract_split ds "train" _ _) as [s|e] eqn:E; cbn [bind]; [|rewrite (extract_error _ _ _ _ _ E); reflexivity].
    rewrite (official_missing ds _ _ _ r2 Ht H); reflexivity.
Qed.

(* Finding: no reference reaches a data set of an owner: owner/name is read as the data set "owner" with the configuration "name". *)
Theorem C164_owner_refuted ref options : (~ In "/"%char (fst (request_of (resolve o ref options)))) /\
  (forall owner name, names ref owner (Some name) -> request_of (resolve o ref options) = (owner, Some (PStr (str name)))).
Proof.
  split.
  - unfold resolve; pose proof (split_no_slash ref) as H; destruct (split_ref ref) as (n, c); exact H.
  - intros owner name H; exact (proj1 (proj2 (proj2 (C164_reference ref owner (Some name) options H)))).
Qed.
(* Finding: an empty configuration is passed on, but does not show in the URI: two requests share it. *)
Theorem C164_empty_config_refuted name : names name name None ->
  h_uri (resolve o name [("config", PStr "")]) = h_uri (resolve o name []) /\ request_of (resolve o name [("config", PStr "")]) <> request_of (resolve o name []).
Proof. intros H; unfold resolve; rewrite (split_names _ _ _ H); split; [reflexivity|discriminate]. Qed.
End Props.

(* ---- examples *)
Example hfx_names : names (txt " ag_news / sub/x ") (txt "ag_news") (Some (txt "sub/x")) /\ names (txt "imdb") (txt "imdb") None.
Proof.
  assert (B : blank (txt " ")) by (intros c [<-|[]]; cbn; tauto); assert (B0 : blank []) by (intros c []).
  assert (C : forall t, cleanc t = true -> clean t) by exact cleanc_clean.
  split; (split; [apply C; reflexivity|split; [cbn; intros H; repeat (destruct H as [H|H]; [discriminate|]); exact H|]]).
  - split; [discriminate|split; [apply C; reflexivity|]]; exists (txt " "), (txt " "), (txt " "), (txt " "); repeat (split; [exact B|]); reflexivity.
  - exists [], []; split; [exact B0|split; [exact B0|left; reflexivity]].
Qed.
Definition hfx_rows (l : list Z) : @rows Z := {| r_samples := [("text", l)]; r_labels := [("label", map (fun _ => 1) l)] |}.
Definition hfx_ds : @source Z := Splits [("train", hfx_rows [1; 2; 3]); ("validation", hfx_rows [4])].
Example hfx_holds : has_split hfx_ds "train" (hfx_rows [1; 2; 3]) /\ holds (hfx_rows [1; 2; 3]) "text" "label" [1; 2; 3] [1; 1; 1] /\ test_split hfx_ds true (Some (hfx_rows [4])).
Proof.
  split; [exists [], [("validation", hfx_rows [4])]; split; [reflexivity|intros []]|split; [split; exists [], []; (split; [reflexivity|intros []])|right; split]].
  - intros (t & Ht); apply (look_spec (B := @rows Z)) in Ht; discriminate.
  - exists [("train", hfx_rows [1; 2; 3])], []; split; [reflexivity|intros [H|[]]; discriminate].
Qed.

Print Assumptions C164_reference.
Print Assumptions C164_uri.
Print Assumptions C164_splits.
Print Assumptions C164_missing.
Print Assumptions C164_owner_refuted.
Print Assumptions C164_empty_config_refuted.
