(* C175: where downloaded models are kept, when the network is left alone, and which device "auto" names. *)
From Coq Require Import String Ascii Lia.
From Verif Require Import Prelude OmlSpec McdModel McdSpec McdProofs.
Local Open Scope string_scope.
Local Open Scope list_scope.
Local Notation length := List.length.

(* A table names one folder at most. *)
Theorem C175_one : forall e table r r', chooses e table r -> chooses e table r' -> r = r'.
Proof. intros e table r r' H H'. rewrite (chooses_pick _ _ _ H), (chooses_pick _ _ _ H'). reflexivity. Qed.
(* Each folder is the one the first filled variable of its table names; None when no variable of the table is filled. *)
Theorem C175_folders : forall path e,
  chooses e (root_table path) (model_root path e) /\ chooses e (torch_table path) (torch_home path e) /\ chooses e (hf_table path) (hf_home path e) /\
  chooses e (st_table path) (st_cache path e) /\ chooses e (clip_table path) (openclip_dir path e).
Proof. intros path e. rewrite root_pick, torch_pick, hf_pick, st_pick, clip_pick. repeat split; apply pick_chooses. Qed.
(* A flag is on when its variable is there and does not say no. *)
Theorem C175_flag : forall e k, env_flag e k = true <-> exists v, says e k v /\ ~ says_no v.
Proof.
  intros e k. unfold env_flag. destruct (get e k) as [v|] eqn:E.
  - assert (Hs := proj1 (get_says e k v) E). rewrite negb_true_iff. split.
    + intros H. exists v. split; [exact Hs|]. intros N. apply flag_ok in N. congruence.
    + intros (v' & Hv & N). apply get_says in Hv. assert (v' = v) by congruence. subst v'. apply not_true_iff_false. intros H. apply N, flag_ok, H.
  - split; [discriminate|]. intros (v & Hv & _). apply get_says in Hv. congruence.
Qed.
(* Only files already on disk are used exactly when one of three flags is on. *)
Theorem C175_offline : forall e, local_only e = true <-> exists k v, In k ["MODSSC_HF_LOCAL_FILES_ONLY"; "HF_HUB_OFFLINE"; "TRANSFORMERS_OFFLINE"] /\ says e k v /\ ~ says_no v.
Proof.
  intros e. unfold local_only. rewrite existsb_exists. split.
  - intros (k & Hk & H). apply C175_flag in H. destruct H as (v & H). exists k, v. auto.
  - intros (k & v & Hk & H). exists k. split; [exact Hk|]. apply C175_flag. exists v. exact H.
Qed.
(* Announcing the torch folder: the answer is the chosen folder; TORCH_HOME becomes it when the variable was missing; a variable that was there, TORCH_HOME or another, keeps its value; none other appears. *)
Theorem C175_announce : forall path e h e', ensure_torch_home path e = (h, e') ->
  h = torch_home path e /\
  (forall k v, says e k v -> says e' k v) /\
  (forall k v, k <> "TORCH_HOME" -> says e' k v -> says e k v) /\
  (missing e "TORCH_HOME" -> forall x, h = Some x <-> says e' "TORCH_HOME" x) /\
  (forall v, says e "TORCH_HOME" v -> e' = e).
Proof.
  intros path e h e' H. unfold ensure_torch_home in H. injection H as <- <-. split; [reflexivity|]. unfold setdefault.
  assert (A : forall k v, says e k v -> missing e k -> False) by (intros k v Hs Hm; apply get_says in Hs; apply get_missing in Hm; congruence).
  destruct (torch_home path e) as [x|] eqn:Ht; [destruct (get e "TORCH_HOME") as [v|] eqn:Eg|].
  - repeat split; auto; try (apply get_missing in H; congruence).
  - repeat apply conj.
    + intros k v. rewrite <- !get_says, (get_app e _ k x Eg). destruct (String.eqb_spec "TORCH_HOME" k); [congruence|auto].
    + intros k v N. rewrite <- !get_says, (get_app e _ k x Eg). destruct (String.eqb_spec "TORCH_HOME" k); [congruence|auto].
    + intros _ y. rewrite <- get_says, (get_app e _ _ x Eg), String.eqb_refl. tauto.
    + intros v Hv. apply get_says in Hv. congruence.
  - repeat split; auto; [discriminate|]. intros Hs. destruct (A _ _ Hs H).
Qed.
(* With settled paths, announcing again changes nothing and gives the same folder, and every folder of the environment stays where it was. *)
Theorem C175_again : forall path, settles path -> forall e h e', ensure_torch_home path e = (h, e') ->
  ensure_torch_home path e' = (h, e') /\ hf_home path e' = hf_home path e /\ st_cache path e' = st_cache path e /\ openclip_dir path e' = openclip_dir path e /\ local_only e' = local_only e.
Proof.
  intros path S e h e' H. unfold ensure_torch_home in H. injection H as <- <-. destruct (torch_home path e) as [x|] eqn:Ht; [|unfold ensure_torch_home; rewrite Ht; repeat split].
  unfold setdefault. destruct (get e "TORCH_HOME") as [v|] eqn:Eg; [unfold ensure_torch_home, setdefault; rewrite Ht, Eg; repeat split|].
  destruct (home_settled path S e x Ht) as [Hx Nx]. assert (G : forall k, get (e ++ [("TORCH_HOME", x)]) k = if String.eqb "TORCH_HOME" k then Some x else get e k) by (intros k; apply get_app, Eg).
  assert (Gt : get (e ++ [("TORCH_HOME", x)]) "TORCH_HOME" = Some x) by (rewrite G; reflexivity).
  assert (F : forall k, String.eqb "TORCH_HOME" k = false -> filled (e ++ [("TORCH_HOME", x)]) k = filled e k) by (intros k N; unfold filled; rewrite G, N; reflexivity).
  split; [|repeat split].
  - assert (T : torch_home path (e ++ [("TORCH_HOME", x)]) = Some x) by (unfold torch_home; cbn [first_filled]; unfold filled; rewrite Gt; destruct (String.eqb_spec x ""); [congruence|rewrite Hx; reflexivity]).
    unfold ensure_torch_home, setdefault. rewrite T, Gt. reflexivity.
  - unfold hf_home, in_root, model_root. rewrite !F by reflexivity. reflexivity.
  - unfold st_cache, hf_home, in_root, model_root. rewrite !F by reflexivity. reflexivity.
  - unfold openclip_dir, in_root, model_root. cbn [first_filled]. rewrite !F by reflexivity. reflexivity.
  - unfold local_only, env_flag. cbn [existsb]. rewrite !G. reflexivity.
Qed.
(* Audio downloads go to hub/checkpoints of the announced folder. *)
Theorem C175_downloads : forall path e, download_dir path e = (option_map (fun h => h ++ "/hub/checkpoints")%string (torch_home path e), snd (ensure_torch_home path e)).
Proof. intros path e. unfold download_dir, ensure_torch_home, join. destruct (torch_home path e) as [h|]; cbn; [rewrite app_assoc_s|]; reflexivity. Qed.
(* Refuted: "after the announcement TORCH_HOME names the folder that was reported".  A TORCH_HOME set to nothing is read as unset but never replaced, for every later root. *)
Theorem C175_empty_home_refuted : forall path v, v <> "" -> exists e h e', ensure_torch_home path e = (Some h, e') /\ h = path v /\ says e' "TORCH_HOME" "".
Proof.
  intros path v N. exists [("TORCH_HOME", ""); ("MODSSC_TORCH_HOME", v)], (path v), [("TORCH_HOME", ""); ("MODSSC_TORCH_HOME", v)]. unfold ensure_torch_home, torch_home, setdefault. cbn. unfold filled. cbn. destruct (String.eqb_spec v ""); [congruence|]. repeat split. exists [], [("MODSSC_TORCH_HOME", v)]. split; [reflexivity|intros []].
Qed.
(* A named device, or none, is passed through and asks nothing. *)
Theorem C175_named : forall device given found cache, device <> Some "auto" -> resolve_device device given found cache = (Ok device, cache).
Proof. intros [d|] given found cache H; cbn; [destruct (String.eqb_spec d "auto") as [->|]; [congruence|reflexivity]|reflexivity]. Qed.
(* "auto" with a torch at hand: cuda when torch says so, else mps when it is there and works, else cpu; an error only from the cuda check. *)
Theorem C175_auto : forall t found cache n, resolve_device (Some "auto") (Some t) found cache = (Ok (Some n), cache) <->
  (n = "cuda" /\ exists t', t = Some t' /\ t_cuda t' = Some (Says true)) \/
  ((forall t', t = Some t' -> t_cuda t' <> Some (Says true) /\ forall e, t_cuda t' <> Some (Raises e)) /\
   ((n = "mps" /\ exists t' m, t = Some t' /\ t_mps t' = Some m /\ mps_works m) \/
    (n = "cpu" /\ ~ exists t' m, t = Some t' /\ t_mps t' = Some m /\ mps_works m))).
Proof.
  intros t found cache n. cbn [resolve_device]. cbn [String.eqb Ascii.eqb Bool.eqb negb]. rewrite <- mps_ok. unfold best_device. destruct t as [t|].
  - assert (K : t_cuda t <> Some (Says true) -> (forall e, t_cuda t <> Some (Raises e)) -> ((Ok (Some (if mps_available (Some t) then "mps" else "cpu")), cache) = (Ok (Some n), cache) <-> (n = "cuda" /\ exists t', Some t = Some t' /\ t_cuda t' = Some (Says true)) \/ ((forall t', Some t = Some t' -> t_cuda t' <> Some (Says true) /\ forall e, t_cuda t' <> Some (Raises e)) /\ ((n = "mps" /\ mps_available (Some t) = true) \/ (n = "cpu" /\ ~ mps_available (Some t) = true))))).
    { intros N1 N2. split.
      - intros E. right. split; [intros t' E'; injection E' as <-; split; assumption|]. destruct (mps_available (Some t)); [left|right]; (split; [congruence|]); [reflexivity|intros X; discriminate X].
      - intros [(_ & t' & E' & E)|[_ [[-> H]|[-> H]]]]; [injection E' as <-; destruct (N1 E)|rewrite H; reflexivity|]. destruct (mps_available (Some t)); [destruct (H eq_refl)|reflexivity]. }
    destruct (t_cuda t) as [[[]| |e]|] eqn:Ec; cbn [bind]; try (apply K; [discriminate|intros; discriminate]).
    + split; [intros E; injection E as <-; left; split; [reflexivity|]; exists t; auto|]. intros [[-> _]|[H _]]; [reflexivity|]. destruct (proj1 (H t eq_refl) Ec).
    + split; [discriminate|]. intros [(_ & t' & E' & E)|[H _]]; [injection E' as <-; congruence|]. destruct (proj2 (H t eq_refl) e Ec).
  - cbn. split; [intros [= <-]; right; split; [discriminate|right; split; [reflexivity|discriminate]]|]. intros [(_ & t' & H & _)|[_ [[_ H]|[-> _]]]]; [discriminate|discriminate|reflexivity].
Qed.
(* Left to itself and asked for the first time, "auto" answers as for the torch found by the import. *)
Theorem C175_first : forall found, fst (resolve_device (Some "auto") None found None) = fst (resolve_device (Some "auto") (Some found) found None).
Proof. intros found. cbn. destruct (best_device found); reflexivity. Qed.
(* In any run of calls, once "auto" on its own has answered, it gives that answer for good. *)
Theorem C175_steady : forall l cache i j f f' n, (i <= j)%nat ->
  nth_error l i = Some (Some "auto", None, f) -> nth_error l j = Some (Some "auto", None, f') ->
  nth_error (calls l cache) i = Some (Ok n) -> nth_error (calls l cache) j = Some (Ok n).
Proof.
  induction l as [|[[d g] x] l IH]; intros cache [|i] j f f' n Hij Hi Hj Hr; cbn [nth_error] in Hi; try discriminate.
  - injection Hi as -> -> ->. cbn [calls] in Hr |- *. cbn in Hr |- *. destruct cache as [c|].
    + injection Hr as <-. destruct j as [|j]; [reflexivity|]. cbn [nth_error] in *. eapply calls_cached. exact Hj.
    + destruct (best_device f) as [c|e]; [|discriminate]. injection Hr as <-. destruct j as [|j]; [reflexivity|]. cbn [nth_error] in *. eapply calls_cached. exact Hj.
  - destruct j as [|j]; [lia|]. cbn [nth_error calls] in *. destruct (resolve_device d g x cache) as [y c]. cbn [nth_error] in *. eapply (IH c i j f f'); eauto. lia.
Qed.
(* Refuted: "auto is a device that is there now".  A first call on a machine with cuda decides every later call, also after torch is gone. *)
Theorem C175_stale_refuted : exists t, forall found, calls [(Some "auto", None, Some t); (Some "auto", None, found)] None = [Ok (Some "cuda"); Ok (Some "cuda")] /\ resolve_device (Some "auto") (Some None) found None = (Ok (Some "cpu"), None).
Proof. exists {| t_cuda := Some (Says true); t_mps := None |}. intros found. split; reflexivity. Qed.
(* Refuted: "auto always names a device".  Errors of the mps checks are taken as no; an error of the cuda check reaches the caller, for every error, even when mps works. *)
Theorem C175_cuda_error_refuted : forall e, exists t m, t_mps t = Some m /\ mps_works m /\ forall found cache, resolve_device (Some "auto") (Some (Some t)) found cache = (Err e, cache).
Proof. intros e. exists {| t_cuda := Some (Raises e); t_mps := Some {| m_built := None; m_available := Some (Says true); m_zeros := Ok tt |} |}, {| m_built := None; m_available := Some (Says true); m_zeros := Ok tt |}. unfold mps_works. cbn. repeat split; auto. Qed.

(* Concrete cases *)
Definition abs (s : string) : string := match s with String "/" _ => s | _ => String "/" s end.
Lemma abs_slash s : exists r, abs s = String "/" r.
Proof. unfold abs. destruct s as [|[[] [] [] [] [] [] [] []] s]; eexists; reflexivity. Qed.
Example C175_paths_exist : settles abs.
Proof.
  split.
  - intros s. destruct (abs_slash s) as (r & E). rewrite E. split; [discriminate|reflexivity].
  - intros s q H. destruct (abs_slash s) as (r & E). rewrite <- H, E. reflexivity.
Qed.
Definition sample : env := [("PATH", "/bin"); ("MODSSC_CACHE_ROOT", "c"); ("HF_HUB_OFFLINE", " No "); ("HF_HOME", "/h")].
Example C175_sample : torch_home abs sample = Some "/c/models/torch" /\ st_cache abs sample = Some "/h/sentence_transformers" /\ local_only sample = false /\
  fst (download_dir abs sample) = Some "/c/models/torch/hub/checkpoints" /\ missing sample "TORCH_HOME" /\ says_no " No ".
Proof.
  repeat split; [intros H; cbn in H; intuition discriminate|]. exists [" "%char], ["N"; "o"]%char, [" "%char], "no". split; [reflexivity|]. split; [intros c [<-|[]]; apply OmlProofs.is_space_spec; reflexivity|]. split; [intros c [<-|[]]; apply OmlProofs.is_space_spec; reflexivity|]. split; [right; right; right; left; reflexivity|].
  constructor; [right; cbn; lia|]. constructor; [left; reflexivity|constructor].
Qed.
Example C175_flag_on : env_flag [("TRANSFORMERS_OFFLINE", "yes")] "TRANSFORMERS_OFFLINE" = true.
Proof. reflexivity. Qed.
Example C175_run : calls [(Some "auto", None, None); (Some "cuda:1", None, None); (None, None, None); (Some "auto", None, Some {| t_cuda := Some (Says true); t_mps := None |})] None = [Ok (Some "cpu"); Ok (Some "cuda:1"); Ok None; Ok (Some "cpu")].
Proof. reflexivity. Qed.

Print Assumptions C175_one.
Print Assumptions C175_folders.
Print Assumptions C175_flag.
Print Assumptions C175_offline.
Print Assumptions C175_announce.
Print Assumptions C175_again.
Print Assumptions C175_downloads.
Print Assumptions C175_empty_home_refuted.
Print Assumptions C175_named.
Print Assumptions C175_auto.
Print Assumptions C175_first.
Print Assumptions C175_steady.
Print Assumptions C175_stale_refuted.
Print Assumptions C175_cuda_error_refuted.
