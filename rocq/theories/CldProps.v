(* C177: the data set commands: what they ask of the loader, print and return. *)
From Coq Require Import String Sorted Lia.
From Verif Require Import Prelude DecString CldModel CldSpec CldProofs.
Local Open Scope string_scope.
Local Open Scope list_scope.
Local Notation length := List.length.

(* list: all keys, or those of the wanted modalities in the same order; the first data set whose description fails ends the command before anything is printed, with code 2 when the loader announces the failure. *)
Theorem C177_list : forall keys info modalities,
  (modalities = None \/ modalities = Some [] -> list_datasets keys info modalities = {| out := keys; err := []; made := []; ends := Exit 0 |}) /\
  forall w, modalities = Some w -> w <> [] ->
    ((forall k, In k keys -> exists m, info k = inl m) -> exists l, picked (fun k => exists m, info k = inl m /\ In m w) keys l /\ list_datasets keys info modalities = {| out := l; err := []; made := []; ends := Exit 0 |}) /\
    (forall a k b f, keys = a ++ k :: b -> info k = inr f -> (forall k', In k' a -> exists m, info k' = inl m) ->
       (forall m, announced f m -> list_datasets keys info modalities = {| out := []; err := [m]; made := []; ends := Exit 2 |}) /\
       (forall m, f = Foreign m -> list_datasets keys info modalities = {| out := []; err := []; made := []; ends := Crash m |})).
Proof.
  intros keys info modalities. split; [intros [->| ->]; reflexivity|]. intros w -> N. destruct w as [|w0 w]; [congruence|]. unfold list_datasets. split.
  - intros H. destruct (wanted_keys info (w0 :: w) keys) as [l|f] eqn:E; [exists l; split; [apply wanted_ok, E|reflexivity]|]. apply wanted_fail in E. destruct E as (a & k & b & -> & E & _). destruct (H k ltac:(apply in_or_app; right; left; reflexivity)) as (m & Em). congruence.
  - intros a k b f E1 E2 H. assert (E : wanted_keys info (w0 :: w) keys = inr f) by (apply wanted_fail; exists a, k, b; auto). rewrite E. split; [intros m [->| ->]; reflexivity|intros m ->; reflexivity].
Qed.
(* download --all: one request with the given options; four counts, then the missing extras with their data sets and the failures with their messages, in the order of names. *)
Theorem C177_all : forall all one id force ignore skip modalities r, all force ignore skip modalities = inl r ->
  exists extras failures, let x := download all one id true force ignore skip modalities in
    made x = [All force ignore skip modalities] /\ err x = [] /\
    out x = ["Downloaded: " ++ dec (lenZ (r_downloaded r)); "Skipped (already cached): " ++ dec (lenZ (r_cached r)); "Skipped (missing extras): " ++ dec (lenZ (r_skipped r)); "Failed: " ++ dec (lenZ (r_failed r))]%string ++ extras ++ failures /\
    section "Missing extras:" (fun e => fst e ++ ": " ++ String.concat ", " (snd e))%string (r_missing r) extras /\
    section "Failed:" (fun e => fst e ++ ": " ++ snd e)%string (r_failed r) failures.
Proof.
  intros all one id force ignore skip modalities r H. do 2 eexists. unfold download. rewrite H. cbn zeta. split; [reflexivity|]. split; [reflexivity|]. split; [reflexivity|]. split; [exact (section_ok "Missing extras:" (fun e => fst e ++ ": " ++ String.concat ", " (snd e))%string (r_missing r))|exact (section_ok "Failed:" (fun e => fst e ++ ": " ++ snd e)%string (r_failed r))].
Qed.
(* The code of download --all: 0 exactly when a report without failures came back, 2 exactly when it has failures or the loader announced a failure; other errors pass. *)
Theorem C177_all_code : forall all one id force ignore skip modalities, let x := download all one id true force ignore skip modalities in
  (ends x = Exit 0 <-> exists r, all force ignore skip modalities = inl r /\ r_failed r = []) /\
  (ends x = Exit 2 <-> (exists r, all force ignore skip modalities = inl r /\ r_failed r <> []) \/ (exists f m, all force ignore skip modalities = inr f /\ announced f m /\ out x = [] /\ err x = [m])) /\
  (forall m, ends x = Crash m <-> all force ignore skip modalities = inr (Foreign m)).
Proof.
  intros all one id force ignore skip modalities x. subst x. unfold download, announced. destruct (all force ignore skip modalities) as [r|f]; cbn [ends].
  - destruct (r_failed r) as [|e l] eqn:E; repeat split; try discriminate.
    + intros _. exists r. auto.
    + intros [(r' & [= <-] & N)|(f & m & [=] & _)]. congruence.
    + intros (r' & [= <-] & N). congruence.
    + intros _. left. exists r. split; [reflexivity|congruence].
  - destruct f as [m|m|m]; cbn; repeat split; try discriminate; try (intros (r & [=] & _)); try (intros _; right; eexists; exists m; split; [reflexivity|]; auto; fail); try (intros [(r & [=] & _)|(f & m' & [= <-] & [E|E] & _)]; discriminate); intros [= ->]; reflexivity.
Qed.
(* download --dataset: one request; downloaded, or skipped for a missing extra when these are ignored, with code 0; an announced failure gives its message and code 2; other errors pass. *)
Theorem C177_one : forall all one id force ignore skip modalities, let x := download all one (Some id) false force ignore skip modalities in
  made x = [One id force] /\
  (one id force = inl tt -> out x = ["Downloaded: " ++ id]%string /\ err x = [] /\ ends x = Exit 0) /\
  (forall m, one id force = inr (NoExtra m) -> ignore = true -> out x = ["Skipped " ++ id ++ ": " ++ m]%string /\ err x = [] /\ ends x = Exit 0) /\
  (forall f m, one id force = inr f -> announced f m -> (ignore = false \/ f = Loader m) -> out x = [] /\ err x = [m] /\ ends x = Exit 2) /\
  (forall m, one id force = inr (Foreign m) -> out x = [] /\ ends x = Crash m).
Proof.
  intros all one id force ignore skip modalities x. subst x. unfold download, announced. repeat apply conj.
  - destruct (one id force) as [u|[m|m|m]]; [| destruct ignore| |]; reflexivity.
  - intros ->. repeat split.
  - intros m -> ->. repeat split.
  - intros f m -> [->| ->] [->|E]; try discriminate E; repeat split.
  - intros m ->. repeat split.
Qed.
(* Without --dataset and --all nothing is requested and the code is 2. *)
Theorem C177_nothing : forall all one force ignore skip modalities, let x := download all one None false force ignore skip modalities in made x = [] /\ out x = [] /\ ends x = Exit 2 /\ err x <> [].
Proof. intros. cbn. repeat split. discriminate. Qed.
(* Purging and collecting ask the cache once and report the number of variants; collecting without keep-latest asks nothing. *)
Theorem C177_cache : forall purge gc x,
  cache_purge purge x false = {| out := ["Purged variants: " ++ dec (lenZ (purge x))]%string; err := []; made := [PurgeData x]; ends := Exit 0 |} /\
  made (cache_purge purge x true) = [PurgePrint x] /\
  cache_gc gc true = {| out := ["Removed: " ++ dec (lenZ gc)]%string; err := []; made := [Gc]; ends := Exit 0 |} /\
  made (cache_gc gc false) = [].
Proof. intros. repeat split. Qed.
(* Refuted: "code 0 of download --dataset means the data set is there".  With the default of ignoring missing extras a data set that could not be downloaded gives code 0. *)
Theorem C177_skipped_refuted : exists one, forall all id skip modalities, exists m, one id false = inr (NoExtra m) /\ ends (download all one (Some id) false false true skip modalities) = Exit 0.
Proof. exists (fun _ _ => inr (NoExtra "install it")). intros. exists "install it". split; reflexivity. Qed.
(* Refuted: "options of download are honoured or refused".  With --dataset, --skip-cached and --modalities change nothing, for every loader; with --all, --dataset changes nothing. *)
Theorem C177_options_refuted : forall all one id id' force ignore skip skip' modalities modalities',
  download all one (Some id) false force ignore skip modalities = download all one (Some id) false force ignore skip' modalities' /\
  download all one (Some id) true force ignore skip modalities = download all one id' true force ignore skip modalities.
Proof. intros. split; reflexivity. Qed.
(* Refuted: "a purge by fingerprint tells whether something was purged".  The message and the code are the same for every cache. *)
Theorem C177_purge_refuted : forall purge purge' x, cache_purge purge x true = cache_purge purge' x true /\ out (cache_purge purge x true) = ["Purged fingerprint: " ++ x]%string.
Proof. intros. split; reflexivity. Qed.

(* Concrete cases *)
Definition kinds (k : string) : string + failure := if String.eqb k "imdb" then inl "text" else if String.eqb k "x" then inr (Loader "no x") else inl "vision".
Example C177_list_sample : out (list_datasets ["cifar10"; "imdb"; "mnist"] kinds (Some ["vision"; "audio"])) = ["cifar10"; "mnist"] /\ list_datasets ["imdb"; "x"] kinds (Some ["text"]) = {| out := []; err := ["no x"]; made := []; ends := Exit 2 |}.
Proof. split; reflexivity. Qed.
Definition rep : report := {| r_downloaded := ["iris"]; r_cached := []; r_skipped := ["cora"; "mnist"]; r_missing := [("vision", ["mnist"]); ("graph", ["cora"; "pubmed"])]; r_failed := [("imdb", "offline")] |}.
Example C177_all_sample : download (fun _ _ _ _ => inl rep) (fun _ _ => inl tt) None true false true false None =
  {| out := ["Downloaded: 1"; "Skipped (already cached): 0"; "Skipped (missing extras): 2"; "Failed: 1"; ""; "Missing extras:"; "graph: cora, pubmed"; "vision: mnist"; ""; "Failed:"; "imdb: offline"]; err := []; made := [All false true false None]; ends := Exit 2 |}.
Proof. reflexivity. Qed.
Example C177_one_sample : ends (download (fun _ _ _ _ => inl rep) (fun _ _ => inr (Loader "unknown")) (Some "z") false false true false None) = Exit 2.
Proof. reflexivity. Qed.

Print Assumptions C177_list.
Print Assumptions C177_all.
Print Assumptions C177_all_code.
Print Assumptions C177_one.
Print Assumptions C177_nothing.
Print Assumptions C177_cache.
Print Assumptions C177_skipped_refuted.
Print Assumptions C177_options_refuted.
Print Assumptions C177_purge_refuted.
