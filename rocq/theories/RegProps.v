(* C127 the registry of methods, C128 the registry of classifiers, C129 the registry of augmentations, C130 dataset URIs. *)
From Coq Require Import String Ascii Sorted Lia.
From Coq Require Import ZifyBool ZifyNat.
From Verif Require Import Prelude RegModel RegSpec RegProofs.
Local Open Scope string_scope.
Local Open Scope list_scope.
Local Notation length := List.length.

(* ---- C127 *)
(* a registration is accepted exactly when the id is not empty, the path has a colon, the status is known and the id does
   not belong to another path; it sets this id and leaves the others *)
Theorem C127_register : forall reg id path status,
  ((exists reg', register_method reg id path status = Ok reg') <->
     (id <> "" /\ (1 <= colons path)%nat /\ known_status status /\ forall path' status', is_registered reg id path' status' -> path' = path)) /\
  (forall reg', register_method reg id path status = Ok reg' -> is_registered reg' id path status /\ forall i, i <> id -> dget reg' i = dget reg i) /\
  (forall e, register_method reg id path status = Err e -> e = ValueError).
Proof.
  intros reg id path status. split; [|split].
  - split; [intros (reg' & H); now apply register_method_iff in H as [H _]|]. intros H. eexists. apply register_method_iff. split; [exact H|reflexivity].
  - intros reg' H. apply register_method_iff in H as [_ ->]. split; [unfold is_registered; now rewrite dput_get, String.eqb_refl|]. intros i Hi. rewrite dput_get. destruct (String.eqb_spec id i); [congruence|reflexivity].
  - intros e. apply register_method_err.
Qed.
Print Assumptions C127_register.

(* an id never loses its path, whatever is called afterwards *)
Theorem C127_path_kept : forall C import_class builtins reg cs id path status,
  is_registered reg id path status -> exists status', is_registered (method_run C import_class builtins reg cs) id path status'.
Proof.
  intros C import_class builtins reg cs id path status H. destruct (run_kept C import_class builtins cs reg id _ H) as ([p s] & E & P). cbn in P. subst p. now exists s.
Qed.
Print Assumptions C127_path_kept.

(* after any history, a listing that answers is alphabetical, without repetition, and names exactly what is registered and,
   on request, not planned; every built-in id is registered by then *)
Theorem C127_listing : forall C import_class builtins cs only reg' l,
  acceptable builtins ->
  method_step C import_class builtins (method_run C import_class builtins [] cs) (Available only) = (reg', Ok (Ids C l)) ->
  alphabetical l /\
  (forall id, In id l <-> exists path status, is_registered reg' id path status /\ (only = true -> status <> "planned")) /\
  (forall id path status, In (id, path, status) builtins -> is_registered reg' id path status) /\
  (forall id path status, is_registered (method_run C import_class builtins [] cs) id path status -> exists status', is_registered reg' id path status').
Proof.
  intros C import_class builtins cs only reg' l HA H. set (reg := method_run C import_class builtins [] cs) in *. cbn [method_step] in H.
  assert (Hn : NoDup (map fst reg)) by (apply run_NoDup; constructor).
  pose proof (register_all_NoDup builtins reg Hn) as Hn'. pose proof (register_all_kept builtins reg) as HK.
  destruct (taken_dec builtins reg) as [T|T]; [destruct (register_all_taken builtins reg T) as (r & E); rewrite E in H; discriminate|].
  destruct (register_all_ok builtins HA reg T) as (r & E & G). rewrite E in *. cbn [fst] in *. injection H as <- <-.
  destruct (available_ids_spec r only Hn') as [S1 S2]. split; [exact S1|]. split; [exact S2|]. split.
  - intros id path status Hin. unfold is_registered. rewrite G. destruct HA as [HN _]. now rewrite (find_call builtins id path status HN Hin).
  - intros id path status Hr. destruct (HK id _ Hr) as ([p s] & E1 & P). cbn in P. subst p. now exists s.
Qed.
Print Assumptions C127_listing.

(* the listing and the look-up answer exactly as long as no built-in id belongs to another path; once one does, they raise
   ValueError for ever, whatever is called in between *)
Theorem C127_answers : forall C import_class builtins reg only,
  acceptable builtins ->
  ((exists l, snd (method_step C import_class builtins reg (Available only)) = Ok (Ids C l)) <-> ~ taken builtins reg) /\
  (taken builtins reg -> forall cs, let reg' := method_run C import_class builtins reg cs in
     snd (method_step C import_class builtins reg' (Available only)) = Err ValueError /\
     forall id, snd (method_step C import_class builtins reg' (GetClass id)) = Err ValueError).
Proof.
  intros C import_class builtins reg only HA. split.
  - cbn [method_step]. destruct (taken_dec builtins reg) as [T|T].
    + destruct (register_all_taken builtins reg T) as (r & E). rewrite E. cbn. split; [intros (l & H); discriminate|contradiction].
    + destruct (register_all_ok builtins HA reg T) as (r & E & _). rewrite E. cbn. split; [intros _; exact T|eauto].
  - intros T cs. cbv zeta. assert (T' : taken builtins (method_run C import_class builtins reg cs)).
    { destruct T as (id & path & status & p' & s' & Hin & Hr & Hp). destruct (run_kept C import_class builtins cs reg id _ Hr) as ([q t] & E & P). cbn in P. subst q. exists id, path, status, p', t. auto. }
    destruct (register_all_taken _ _ T') as (r & E). cbn [method_step]. rewrite E. split; reflexivity.
Qed.
Print Assumptions C127_answers.

(* the built-in registrations run before every look-up: running them again changes nothing *)
Theorem C127_idempotent : forall builtins reg reg', acceptable builtins ->
  register_all builtins reg = (reg', None) -> exists reg'', register_all builtins reg' = (reg'', None) /\ forall id, dget reg'' id = dget reg' id.
Proof.
  intros builtins reg reg' HA H. destruct (taken_dec builtins reg) as [T|T]; [destruct (register_all_taken builtins reg T) as (r & E); congruence|].
  destruct (register_all_ok builtins HA reg T) as (r & E & G). rewrite E in H. injection H as ->.
  assert (T' : ~ taken builtins reg').
  { intros (id & path & status & p' & s' & Hin & Hr & Hp). unfold is_registered in Hr. rewrite G in Hr. pose proof HA as [HN _].
    assert (F : find (fun c => String.eqb (fst (fst c)) id) builtins = Some (id, path, status)).
    { now apply find_call. }
    rewrite F in Hr. cbn in Hr. injection Hr as <- <-. now apply Hp. }
  destruct (register_all_ok builtins HA reg' T') as (r2 & E2 & G2). exists r2. split; [exact E2|]. intros id. rewrite G2. destruct (find _ builtins) eqn:F; [|reflexivity]. rewrite G, F. reflexivity.
Qed.
Print Assumptions C127_idempotent.

(* a look-up that answers imports the class named by the registered path, split at its only colon; an unknown id is a
   KeyError, and a path with more than one colon a ValueError *)
Theorem C127_get : forall C (import_class : string -> string -> result C) reg id,
  (forall m c status, is_registered reg id (m ++ ":" ++ c)%string status -> colons m = O -> colons c = O -> load_class C import_class reg id = import_class m c) /\
  (forall path status, is_registered reg id path status -> colons path <> 1%nat -> load_class C import_class reg id = Err ValueError) /\
  ((forall path status, ~ is_registered reg id path status) -> load_class C import_class reg id = Err KeyError).
Proof.
  intros C import_class reg id. unfold is_registered, load_class. split; [|split].
  - intros m c status E Hm Hc. rewrite E. cbn [mr_path]. now rewrite (proj2 (split_colon_two (m ++ ":" ++ c)%string m c) (conj eq_refl (conj Hm Hc))).
  - intros path status E Hc. rewrite E. cbn [mr_path]. pose proof (split_colon_length path) as L. destruct (split_colon path) as [|a [|b [|x l]]]; try reflexivity. cbn in L. lia.
  - intros H. destruct (dget reg id) as [[p s]|] eqn:E; [exfalso; exact (H p s eq_refl)|reflexivity].
Qed.
Print Assumptions C127_get.

(* the two shipped lists are acceptable, each path has one colon, and a fresh process lists every id *)
Definition no_import (m c : string) : result unit := Ok tt.
Lemma acceptable_check calls : (if list_eq_dec string_dec (nodup string_dec (map (fun c => fst (fst c)) calls)) (map (fun c => fst (fst c)) calls) then true else false) = true ->
  forallb (fun c => negb (String.eqb (fst (fst c)) "") && Nat.eqb (colons (snd (fst c))) 1 && String.eqb (snd c) "implemented") calls = true ->
  acceptable calls /\ forall id path status, In (id, path, status) calls -> colons path = 1%nat.
Proof.
  intros H1 H2. destruct (list_eq_dec string_dec _ _) as [E|]; [|discriminate]. rewrite forallb_forall in H2.
  assert (A : forall id path status, In (id, path, status) calls -> id <> "" /\ colons path = 1%nat /\ status = "implemented").
  { intros id path status Hin. specialize (H2 _ Hin). cbn in H2. rewrite !andb_true_iff, negb_true_iff, Nat.eqb_eq, String.eqb_neq, String.eqb_eq in H2. tauto. }
  split; [split; [rewrite <- E; apply NoDup_nodup|]|].
  - intros id path status Hin. destruct (A _ _ _ Hin) as (B & D & ->). split; [exact B|]. split; [lia|]. now left.
  - intros id path status Hin. apply (A _ _ _ Hin).
Qed.
Theorem C127_shipped : forall calls, calls = inductive_builtins \/ calls = transductive_builtins ->
  acceptable calls /\ (forall id path status, In (id, path, status) calls -> colons path = 1%nat) /\
  forall only, exists l, snd (method_step unit no_import calls [] (Available only)) = Ok (Ids unit l) /\ forall id path status, In (id, path, status) calls -> In id l.
Proof.
  assert (G : forall calls, acceptable calls /\ (forall id path status, In (id, path, status) calls -> colons path = 1%nat) -> (forall id path status, In (id, path, status) calls -> status = "implemented") ->
    acceptable calls /\ (forall id path status, In (id, path, status) calls -> colons path = 1%nat) /\
    forall only, exists l, snd (method_step unit no_import calls [] (Available only)) = Ok (Ids unit l) /\ forall id path status, In (id, path, status) calls -> In id l).
  { intros calls [A B] HI. split; [exact A|]. split; [exact B|]. intros only. destruct (C127_answers unit no_import calls [] only A) as [[_ X] _]. destruct X as (l & E).
    { intros (id & path & status & p' & s' & _ & H & _). discriminate. }
    exists l. split; [exact E|]. intros id path status Hin. destruct (method_step unit no_import calls [] (Available only)) as [reg' r] eqn:ES. cbn in E. subst r.
    destruct (C127_listing unit no_import calls [] only reg' l A ES) as (_ & L & R & _). apply L. exists path, status. split; [exact (R _ _ _ Hin)|]. intros _ ->. specialize (HI _ _ _ Hin). discriminate. }
  assert (F : forall calls : list (string * string * string), forallb (fun c => String.eqb (snd c) "implemented") calls = true -> forall id path status, In (id, path, status) calls -> status = "implemented").
  { intros calls H id path status Hin. rewrite forallb_forall in H. specialize (H _ Hin). cbn in H. now apply String.eqb_eq in H. }
  intros calls [->| ->]; (apply G; [apply acceptable_check; vm_compute; reflexivity|apply F; vm_compute; reflexivity]).
Qed.
Print Assumptions C127_shipped.

(* FINDING: the built-in list is registered lazily, so a user may register their own class under a built-in id first; from
   then on every listing and every look-up, of any method, raises ValueError *)
Theorem C127_override_refuted : exists reg,
  register_method [] "fixmatch" "my_package:FixMatch" "implemented" = Ok reg /\
  forall cs id, let reg' := method_run unit no_import inductive_builtins reg cs in
    snd (method_step unit no_import inductive_builtins reg' (Available false)) = Err ValueError /\
    snd (method_step unit no_import inductive_builtins reg' (GetClass id)) = Err ValueError.
Proof.
  eexists. split; [reflexivity|]. intros cs id. cbv zeta. destruct (C127_shipped inductive_builtins (or_introl eq_refl)) as (A & _).
  match goal with |- context[method_run unit no_import inductive_builtins ?r cs] => destruct (C127_answers unit no_import inductive_builtins r false A) as [_ T] end.
  destruct T with (cs := cs) as [T1 T2].
  - exists "fixmatch", "modssc.inductive.methods.fixmatch:FixMatchMethod", "implemented", "my_package:FixMatch", "implemented". split; [cbn; tauto|]. split; [reflexivity|discriminate].
  - split; [exact T1|apply T2].
Qed.
Print Assumptions C127_override_refuted.

(* FINDING: a status given by the user to a built-in method is forgotten by the next listing *)
Theorem C127_status_refuted :
  let reg := method_run unit no_import inductive_builtins [] [Register "vat" "modssc.inductive.methods.vat:VATMethod" "planned"] in
  is_registered reg "vat" "modssc.inductive.methods.vat:VATMethod" "planned" /\
  is_registered (method_run unit no_import inductive_builtins reg [Available true]) "vat" "modssc.inductive.methods.vat:VATMethod" "implemented".
Proof. vm_compute. split; reflexivity. Qed.
Print Assumptions C127_status_refuted.

(* FINDING: a path with two colons is accepted by the registration and refused by the look-up *)
Theorem C127_colons_refuted : exists reg, register_method [] "mine" "pkg:mod:Class" "implemented" = Ok reg /\ load_class unit no_import reg "mine" = Err ValueError.
Proof. eexists. split; vm_compute; reflexivity. Qed.
Print Assumptions C127_colons_refuted.

Example C127_case :
  snd (method_step unit no_import transductive_builtins (method_run unit no_import transductive_builtins [] [Register "aaa" "pkg:Mine" "planned"; GetClass "nobody"]) (Available false))
    = Ok (Ids unit ("aaa" :: sortS (map (fun c => fst (fst c)) transductive_builtins))) /\
  length (sortS (map (fun c => fst (fst c)) transductive_builtins)) = 23%nat.
Proof. vm_compute. split; reflexivity. Qed.

(* ---- C128 *)
(* a classifier keeps its description, its preferred backends and every backend it has, whatever is called afterwards *)
Theorem C128_kept : forall shipped st cs k c, dget (fst st) k = Some c -> exists c', dget (fst (clf_run shipped st cs)) k = Some c' /\ extends c c'.
Proof. intros shipped st cs k c H. exact (clf_run_below shipped cs st k c H). Qed.
Print Assumptions C128_kept.

(* after any history, a listing that answers is alphabetical, names every shipped classifier and exactly the keys that can be
   looked up; the shipped classifiers are there with everything they ship with *)
Theorem C128_listing : forall shipped cs l st',
  clf_step shipped (clf_run shipped ([], false) cs) ListAll = (st', Ok (Keys l)) ->
  alphabetical l /\ (forall e, In e shipped -> In (en_key e) l /\ holds_entry (fst st') e) /\
  (forall k, In k l <-> exists c, clf_step shipped st' (GetSpec k) = (st', Ok (Spec c))) /\
  (forall k, ~ In k l -> forall n, snd (clf_step shipped st' (GetSpec k)) = Err SupervisedError /\ snd (clf_step shipped st' (GetBackend k n)) = Err SupervisedError) /\
  (forall k n b, snd (clf_step shipped st' (GetBackend k n)) = Ok (Backend b) <-> exists c, dget (fst st') k = Some c /\ dget (cl_backends c) n = Some b).
Proof.
  intros shipped cs l st' H. set (st := clf_run shipped ([], false) cs) in *.
  assert (B : booted shipped st) by (apply clf_run_booted; intros X; discriminate).
  assert (Hn : NoDup (map fst (fst st'))). { replace st' with (fst (clf_step shipped st ListAll)) by now rewrite H. apply clf_step_NoDup, clf_run_NoDup. constructor. }
  cbn [clf_step] in H. destruct (ensure_booted shipped st B) as [B' F]. destruct (ensure_bootstrap shipped st) as [s e]. cbn [fst snd] in *. destruct e as [e|]; [discriminate|]. injection H as -> <-.
  pose proof (proj1 F eq_refl) as T.
  assert (ES : ensure_bootstrap shipped st' = (st', None)) by (unfold ensure_bootstrap; now rewrite T).
  split; [now apply sortS_sorted|]. split; [|split; [|split]].
  - intros en Hin. pose proof (B' T en Hin) as HE. split; [|exact HE]. apply sortS_In, dget_In. destruct HE as (c & E & _). eauto.
  - intros k. rewrite sortS_In, dget_In. cbn [clf_step]. rewrite ES. split; [intros (c & E); exists c; now rewrite E|]. intros (c & E). destruct (dget (fst st') k) as [x|]; [eauto|discriminate].
  - intros k Hk n. cbn [clf_step]. rewrite ES. cbn [snd]. destruct (dget (fst st') k) as [x|] eqn:E; [exfalso; apply Hk, sortS_In, dget_In; eauto|]. split; reflexivity.
  - intros k n b. cbn [clf_step]. rewrite ES. cbn [snd]. destruct (dget (fst st') k) as [x|]; [|split; [discriminate|intros (? & X & _); discriminate]].
    destruct (dget (cl_backends x) n) as [y|] eqn:E; [split; [intros [= ->]; eauto|intros (? & [= <-] & X); congruence]|split; [discriminate|intros (? & [= <-] & X); congruence]].
Qed.
Print Assumptions C128_listing.

(* the shipped classifiers get in exactly when none of them asks for something taken: the same description and preferences if
   the key exists, and no backend of the same name.  Otherwise every listing and look-up raises, now and for ever. *)
Theorem C128_bootstrap : forall shipped reg, well_formed shipped ->
  ((exists l, snd (clf_step shipped (reg, false) ListAll) = Ok (Keys l)) <-> forall e, In e shipped -> free_for reg e) /\
  (~ (forall e, In e shipped -> free_for reg e) -> forall cs k n, let st := clf_run shipped (reg, false) cs in
     exists e1 e2 e3, snd (clf_step shipped st ListAll) = Err e1 /\ snd (clf_step shipped st (GetSpec k)) = Err e2 /\ snd (clf_step shipped st (GetBackend k n)) = Err e3).
Proof.
  intros shipped reg W. pose proof (register_entries_free shipped W reg) as F. split.
  - rewrite <- F. cbn [clf_step]. unfold ensure_bootstrap. cbn [fst snd]. destruct (register_entries shipped reg) as [r [e|]]; cbn; [split; [intros (l & H); discriminate|discriminate]|split; [reflexivity|eauto]].
  - intros N cs k n. cbv zeta. assert (S0 : stuck shipped (reg, false)) by (split; [reflexivity|]; cbn [fst]; intros H; apply N, F, H).
    pose proof (stuck_run shipped cs _ S0) as S1. apply stuck_iff in S1. cbn [clf_step]. destruct (ensure_bootstrap shipped (clf_run shipped (reg, false) cs)) as [st' [e|]]; [exists e, e, e; auto|]. exfalso. now apply S1.
Qed.
Print Assumptions C128_bootstrap.

(* the shipped list is well formed, and a fresh process lists it *)
Theorem C128_shipped : well_formed shipped_classifiers /\
  (exists l, snd (clf_step shipped_classifiers ([], false) ListAll) = Ok (Keys l)) /\
  forall e p, In e shipped_classifiers -> In p (en_preferred e) -> In p (map fst (en_backends e)).
Proof.
  assert (W : well_formed shipped_classifiers).
  { split; [assert (E : nodup string_dec (map en_key shipped_classifiers) = map en_key shipped_classifiers) by (vm_compute; reflexivity); rewrite <- E; apply NoDup_nodup|].
    intros e He. assert (G : forallb (fun e => if list_eq_dec string_dec (nodup string_dec (map fst (en_backends e))) (map fst (en_backends e)) then true else false) shipped_classifiers = true) by (vm_compute; reflexivity).
    rewrite forallb_forall in G. specialize (G e He). destruct (list_eq_dec string_dec _ _) as [E|]; [|discriminate]. rewrite <- E. apply NoDup_nodup. }
  split; [exact W|]. split; [apply (C128_bootstrap _ [] W); intros e _ c H; discriminate|].
  intros e p He Hp. assert (G : forallb (fun e => forallb (fun p => existsb (String.eqb p) (map fst (en_backends e))) (en_preferred e)) shipped_classifiers = true) by (vm_compute; reflexivity).
  rewrite forallb_forall in G. specialize (G e He). rewrite forallb_forall in G. specialize (G p Hp). apply existsb_exists in G as (x & Hx & E). apply String.eqb_eq in E. now subst x.
Qed.
Print Assumptions C128_shipped.

(* FINDING: a user who registers a classifier under a shipped key before the first listing, with another description, locks
   the registry: no classifier, shipped or not, can be listed or looked up any more *)
Theorem C128_locked_refuted : forall cs k n, let st := clf_run shipped_classifiers ([], false) (AddClassifier "knn" "my neighbours" ["mine"] :: cs) in
  exists e1 e2 e3, snd (clf_step shipped_classifiers st ListAll) = Err e1 /\ snd (clf_step shipped_classifiers st (GetSpec k)) = Err e2 /\ snd (clf_step shipped_classifiers st (GetBackend k n)) = Err e3.
Proof.
  intros cs k n. cbv zeta. cbn [clf_run fold_left clf_step register_classifier dget fst snd].
  apply (proj2 (C128_bootstrap shipped_classifiers (dput [] "knn" {| cl_description := "my neighbours"; cl_preferred := ["mine"]; cl_backends := [] |}) (proj1 C128_shipped))).
  intros H. specialize (H _ (or_introl eq_refl)). destruct (H _ eq_refl) as (X & _). discriminate.
Qed.
Print Assumptions C128_locked_refuted.

Example C128_case :
  let st := clf_run shipped_classifiers ([], false) [AddClassifier "mine" "my own" ["fast"]; AddBackend "mine" "fast" {| be_factory := "pkg:Fast"; be_extra := None; be_gpu := false; be_notes := "" |}; ListAll] in
  snd (clf_step shipped_classifiers st (GetBackend "mine" "fast")) = Ok (Backend {| be_factory := "pkg:Fast"; be_extra := None; be_gpu := false; be_notes := "" |}) /\
  snd (clf_step shipped_classifiers st (GetBackend "mine" "torch")) = Err UnknownBackendError /\
  exists l, snd (clf_step shipped_classifiers st ListAll) = Ok (Keys l) /\ length l = 21%nat.
Proof. cbv zeta. split; [vm_compute; reflexivity|]. split; [vm_compute; reflexivity|]. eexists. split; vm_compute; reflexivity. Qed.

(* ---- C129 *)
(* register_op accepts a class exactly when it declares its op_id and modality and no other class holds the id *)
Theorem C129_register : forall rt id c,
  ((exists rt', register_op rt id c = Ok rt') <-> (oc_op_id c <> None /\ oc_modality c <> None /\ forall c', dget rt id = Some c' -> oc_class c' = oc_class c)) /\
  (forall rt', register_op rt id c = Ok rt' -> dget rt' id = Some c /\ forall i, i <> id -> dget rt' i = dget rt i) /\
  (forall e, register_op rt id c = Err e -> e = DataAugmentationError).
Proof.
  intros rt id c. split; [|split].
  - split; [intros (rt' & H); now apply register_op_iff in H as [H _]|]. intros H. eexists. apply register_op_iff. split; [exact H|reflexivity].
  - intros rt' H. apply register_op_iff in H as [_ ->]. split; [now rewrite dput_get, String.eqb_refl|]. intros i Hi. rewrite dput_get. destruct (String.eqb_spec id i); [congruence|reflexivity].
  - intros e. apply register_op_err.
Qed.
Print Assumptions C129_register.

(* once get_op has returned a class for an id it returns that class for ever *)
Theorem C129_stable : forall catalogue modules before after id c,
  well_made catalogue modules ->
  let st := op_run catalogue modules no_ops before in
  snd (op_step catalogue modules st (GetOp id)) = Ok (Got c) ->
  exists c', snd (op_step catalogue modules (op_run catalogue modules st (GetOp id :: after)) (GetOp id)) = Ok (Got c') /\ oc_class c' = oc_class c.
Proof.
  intros catalogue modules before after id c W st H. assert (L : loaded_ok modules st) by (apply op_run_loaded; intros m k ds d X; discriminate).
  cbn [op_step] in H. pose proof (get_cls_registered catalogue modules st id) as R. cbn [op_run fold_left op_step]. destruct (get_cls catalogue modules st id) as [st1 r]. cbn [fst snd] in *. destruct r as [x|e]; [|discriminate]. injection H as ->.
  destruct (R c W L eq_refl) as (c1 & E1 & P1). destruct (op_run_kept catalogue modules after st1 id c1 E1) as (c2 & E2 & P2). unfold op_run in E2. unfold get_cls. rewrite E2. exists c2. split; [reflexivity|congruence].
Qed.
Print Assumptions C129_stable.

(* the listing is alphabetical and names the catalogue and what was registered; with a modality, those of that modality or of
   any: the class decides if it is registered, the catalogue otherwise *)
Theorem C129_listing : forall catalogue modules cs modality,
  well_made catalogue modules ->
  let rt := os_rt (op_run catalogue modules no_ops cs) in
  alphabetical (available_ops catalogue rt modality) /\
  forall id, In id (available_ops catalogue rt modality) <->
    (In id (map fst catalogue) \/ exists c, dget rt id = Some c) /\
    forall m, modality = Some m ->
      (forall c, dget rt id = Some c -> fits (match oc_modality c with Some x => x | None => "any" end) m) /\
      (dget rt id = None -> forall w, In (id, w) catalogue -> fits (snd w) m).
Proof.
  intros catalogue modules cs modality (WN & _) rt. assert (Hn : NoDup (map fst rt)) by (apply op_run_NoDup; constructor).
  destruct (all_ids_spec catalogue rt WN Hn) as [SA IA]. unfold available_ops. destruct modality as [m|].
  - split; [apply alphabetical_filter; exact SA|]. intros id. rewrite filter_In, IA, (dget_In rt). cbv zeta. rewrite orb_true_iff, !String.eqb_eq. split.
    + intros [H1 H2]. split; [exact H1|]. intros m' [= <-]. split.
      * intros c Hc. rewrite Hc in H2. exact H2.
      * intros Hc w Hw. rewrite Hc in H2. apply (dget_NoDup_In _ _ _ WN) in Hw. rewrite Hw in H2. exact H2.
    + intros [H1 H2]. destruct (H2 m eq_refl) as [A B]. split; [exact H1|].
      destruct (dget rt id) as [c|] eqn:E; [exact (A c eq_refl)|]. destruct H1 as [H1|(c & H1)]; [|discriminate]. apply dget_In in H1 as (w & Hw). rewrite Hw. apply (B eq_refl). now apply (dget_NoDup_In _ _ _ WN).
  - split; [exact SA|]. intros id. rewrite IA, (dget_In rt). split; [intros H; split; [exact H|discriminate]|tauto].
Qed.
Print Assumptions C129_listing.

(* a user who keeps away from the ids of the catalogue gets, for each of these, the class that declares that id and that
   modality, whatever was called before *)
Theorem C129_get : forall catalogue modules cs id m c modality,
  well_made catalogue modules -> keeps_away catalogue cs -> In (id, (m, c, modality)) catalogue ->
  exists x, snd (op_step catalogue modules (op_run catalogue modules no_ops cs) (GetOp id)) = Ok (Got x) /\ oc_op_id x = Some id /\ oc_modality x = Some modality /\ exists k, oc_class x = Shipped c k.
Proof.
  intros catalogue modules cs id m c modality W K Hin. assert (CL : clean catalogue (op_run catalogue modules no_ops cs)) by (apply op_run_clean; [exact W|intros ? ? ? ? _; reflexivity|exact K]).
  destruct (get_cls_clean catalogue modules _ id W CL) as (_ & _ & G). destruct (G m c modality Hin) as (k & E). cbn [op_step]. destruct (get_cls catalogue modules (op_run catalogue modules no_ops cs) id) as [st' r]. cbn [snd] in *. subst r.
  eexists. split; [reflexivity|]. split; [reflexivity|]. split; [reflexivity|]. eexists. reflexivity.
Qed.
Print Assumptions C129_get.

(* and the modules that happen to be loaded never show in a listing *)
Theorem C129_lazy : forall catalogue modules cs modality,
  well_made catalogue modules -> keeps_away catalogue cs ->
  available_ops catalogue (os_rt (op_run catalogue modules no_ops cs)) modality =
  available_ops catalogue (os_rt (op_run catalogue modules no_ops (filter (fun c => negb (is_get c)) cs))) modality.
Proof.
  intros catalogue modules cs modality W K. assert (C0 : clean catalogue no_ops) by (intros ? ? ? ? _; reflexivity).
  assert (K' : keeps_away catalogue (filter (fun c => negb (is_get c)) cs)) by (intros id x H; apply filter_In in H as [H _]; exact (K id x H)).
  eapply alike_available; [exact W|apply op_run_clean; assumption|apply op_run_clean; assumption|apply runs_alike; try assumption; intros i _; reflexivity|apply op_run_NoDup; constructor|apply op_run_NoDup; constructor].
Qed.
Print Assumptions C129_lazy.

(* the shipped catalogue agrees with the shipped modules *)
Definition agrees (catalogue : list (string * (string * string * string))) (modules : list (string * list decorated)) : bool :=
  forallb (fun p => let '(id, (m, c, mo)) := p in match dget modules m with
     | Some ds => existsb (fun d => String.eqb (de_id d) id && String.eqb (de_class d) c && String.eqb (de_op_id d) id && String.eqb (de_modality d) mo) ds | None => false end) catalogue &&
  forallb (fun q => forallb (fun d => match dget catalogue (de_id d) with Some (m, c, mo) => String.eqb m (fst q) && String.eqb c (de_class d) && String.eqb mo (de_modality d) | None => false end) (snd q)) modules.
Lemma dget_pair {A} (d : list (string * A)) k v : dget d k = Some v -> In (k, v) d.
Proof. induction d as [|[y w] d IH]; cbn; [discriminate|]. destruct (String.eqb_spec y k) as [->|N]; [intros [= ->]; now left|intros H; right; now apply IH]. Qed.
Lemma string_nodup l : (if list_eq_dec string_dec (nodup string_dec l) l then true else false) = true -> NoDup l.
Proof. destruct (list_eq_dec string_dec _ _) as [E|]; [|discriminate]. intros _. rewrite <- E. apply NoDup_nodup. Qed.
Theorem C129_shipped : well_made shipped_catalogue shipped_modules.
Proof.
  assert (A : agrees shipped_catalogue shipped_modules = true) by (vm_compute; reflexivity). unfold agrees in A. apply andb_true_iff in A as [A B]. rewrite forallb_forall in A, B.
  split; [apply string_nodup; vm_compute; reflexivity|]. split.
  - intros id m c mo Hin. specialize (A _ Hin). cbv beta iota in A. destruct (dget shipped_modules m) as [ds|]; [|discriminate]. exists ds. split; [reflexivity|]. apply existsb_exists in A as (d & Hd & E). rewrite !andb_true_iff, !String.eqb_eq in E. destruct E as [[[<- <-] E] <-]. destruct d; cbn in *. now subst.
  - intros m ds Hm. apply dget_pair in Hm. split; [|split].
    + assert (G : forallb (fun q => if list_eq_dec string_dec (nodup string_dec (map de_id (snd q))) (map de_id (snd q)) then true else false) shipped_modules = true) by (vm_compute; reflexivity). rewrite forallb_forall in G. exact (string_nodup _ (G _ Hm)).
    + assert (G : forallb (fun q => if list_eq_dec string_dec (nodup string_dec (map de_class (snd q))) (map de_class (snd q)) then true else false) shipped_modules = true) by (vm_compute; reflexivity). rewrite forallb_forall in G. exact (string_nodup _ (G _ Hm)).
    + intros d Hd. specialize (B _ Hm). cbv beta in B. cbn [fst snd] in B. rewrite forallb_forall in B. specialize (B d Hd). destruct (dget shipped_catalogue (de_id d)) as [[[m' c] mo]|] eqn:E; [|discriminate]. rewrite !andb_true_iff, !String.eqb_eq in B. destruct B as [[-> ->] ->]. now apply dget_pair.
Qed.
Print Assumptions C129_shipped.

(* FINDING: a user's class under a catalogue id silently replaces the shipped one if its module is not loaded yet, and is a
   DataAugmentationError if it is: the outcome depends on the look-ups made before *)
Definition my_op (m : string) : op_class := {| oc_class := Mine 0; oc_op_id := Some "mine"; oc_modality := Some m |}.
Theorem C129_shadow_refuted :
  let early := op_run shipped_catalogue shipped_modules no_ops [AddOp "audio.add_noise" (my_op "vision")] in
  let late := op_run shipped_catalogue shipped_modules no_ops [GetOp "audio.time_shift"] in
  snd (op_step shipped_catalogue shipped_modules early (GetOp "audio.add_noise")) = Ok (Got (my_op "vision")) /\
  snd (op_step shipped_catalogue shipped_modules late (AddOp "audio.add_noise" (my_op "vision"))) = Err DataAugmentationError /\
  ~ In "audio.add_noise" (available_ops shipped_catalogue (os_rt early) (Some "audio")).
Proof. cbv zeta. split; [vm_compute; reflexivity|]. split; [vm_compute; reflexivity|]. vm_compute. intuition discriminate. Qed.
Print Assumptions C129_shadow_refuted.

(* FINDING: and then the other augmentations of that module are listed but cannot be obtained; for those before the
   replaced one in the file the first look-up raises and the second succeeds *)
Theorem C129_broken_refuted :
  let st := op_run shipped_catalogue shipped_modules no_ops [AddOp "text.random_swap" (my_op "text")] in
  let ask st id := snd (op_step shipped_catalogue shipped_modules st (GetOp id)) in
  let next st id := fst (op_step shipped_catalogue shipped_modules st (GetOp id)) in
  In "text.token_mask" (available_ops shipped_catalogue (os_rt st) (Some "text")) /\
  ask st "text.token_mask" = Err DataAugmentationError /\ ask (next st "text.token_mask") "text.token_mask" = Err DataAugmentationError /\
  ask st "text.lowercase" = Err DataAugmentationError /\ (exists c, ask (next st "text.lowercase") "text.lowercase" = Ok (Got c)).
Proof. cbv zeta. split; [vm_compute; tauto|]. split; [vm_compute; reflexivity|]. split; [vm_compute; reflexivity|]. split; [vm_compute; reflexivity|]. eexists. vm_compute. reflexivity. Qed.
Print Assumptions C129_broken_refuted.

(* FINDING: the id a class is registered under need not be the op_id it declares *)
Theorem C129_name_refuted :
  let st := op_run shipped_catalogue shipped_modules no_ops [AddOp "other.name" (my_op "any")] in
  exists c, snd (op_step shipped_catalogue shipped_modules st (GetOp "other.name")) = Ok (Got c) /\ oc_op_id c = Some "mine".
Proof. eexists. split; vm_compute; reflexivity. Qed.
Print Assumptions C129_name_refuted.

Example C129_case :
  let cs := [AddOp "mine" (my_op "vision"); GetOp "vision.cutout"; ListOps None; GetOp "nobody"] in
  keeps_away shipped_catalogue cs /\
  available_ops shipped_catalogue (os_rt (op_run shipped_catalogue shipped_modules no_ops cs)) (Some "vision") =
    ["core.ensure_float32"; "core.identity"; "mine"; "vision.cutout"; "vision.gaussian_noise"; "vision.random_crop_pad"; "vision.random_horizontal_flip"].
Proof.
  cbv zeta. split; [|vm_compute; reflexivity]. intros id c [[= <- <-]|[H|[H|[H|[]]]]]; try discriminate. vm_compute. intuition discriminate.
Qed.

(* ---- C130 *)
(* a string is a URI exactly when it can be parsed; what is refused is refused with the URI error *)
Theorem C130_is_uri : forall space s, (is_uri space s = true <-> exists p, parse_uri space s = Ok p) /\ (is_uri space s = false -> parse_uri space s = Err RuntimeError).
Proof.
  intros space s. unfold is_uri, parse_uri. destruct (has_colon s); cbn [negb]; [|split; [split; [discriminate|intros (p & H); discriminate]|reflexivity]].
  destruct (split_first s) as [p q]. destruct (String.eqb (strip space p) ""), (String.eqb (strip space q) ""); cbn; (split; [split; [try discriminate; eauto|try reflexivity; intros (x & H); discriminate]|try reflexivity; discriminate]).
Qed.
Print Assumptions C130_is_uri.

(* the provider is what stands before the first colon, the reference what stands after it, both without the white space
   around them and not empty *)
Theorem C130_parts : forall space s p q,
  parse_uri space s = Ok {| pu_provider := p; pu_reference := q |} <->
  exists a b, s = (a ++ ":" ++ b)%string /\ colons a = O /\ stripped space a p /\ stripped space b q /\ p <> "" /\ q <> "".
Proof.
  intros space s p q. unfold parse_uri. split.
  - destruct (has_colon s) eqn:E; cbn [negb]; [|discriminate]. destruct (split_first_spec s E) as [ES EC]. destruct (split_first s) as [a b]. cbn [fst snd] in *.
    destruct (String.eqb_spec (strip space a) ""); [discriminate|]. destruct (String.eqb_spec (strip space b) ""); [discriminate|]. cbn [orb]. intros [= <- <-]. exists a, b. split; [exact ES|]. split; [exact EC|]. split; [now apply stripped_strip|]. split; [now apply stripped_strip|]. auto.
  - intros (a & b & -> & C & Sa & Sb & Np & Nq). destruct (split_first_app a b C) as [E1 E2]. rewrite E1, E2. cbn [negb]. apply stripped_strip in Sa, Sb. rewrite <- Sa, <- Sb. destruct (String.eqb_spec p ""); [contradiction|]. destruct (String.eqb_spec q ""); [contradiction|]. reflexivity.
Qed.
Print Assumptions C130_parts.

(* writing a parsed URI and parsing it again gives the same parts, and two parsed URIs that are written alike are equal *)
Theorem C130_round_trip : forall space s p, parse_uri space s = Ok p -> parse_uri space (uri_of p) = Ok p.
Proof.
  intros space s [p q] H. apply C130_parts in H as (a & b & _ & C & Sa & Sb & Np & Nq). apply C130_parts. exists p, q. split; [reflexivity|].
  split; [pose proof (stripped_colons space a p Sa); lia|]. split; [eapply stripped_again; exact Sa|]. split; [eapply stripped_again; exact Sb|]. auto.
Qed.
Print Assumptions C130_round_trip.
Theorem C130_distinct : forall space s s' p p', parse_uri space s = Ok p -> parse_uri space s' = Ok p' -> uri_of p = uri_of p' -> p = p'.
Proof.
  intros space s s' p p' H H' E. apply C130_round_trip in H, H'. rewrite E in H. congruence.
Qed.
Print Assumptions C130_distinct.

Definition blank (a : ascii) : bool := Ascii.eqb a " ".
Example C130_case : parse_uri blank " openml : 61:v2 " = Ok {| pu_provider := "openml"; pu_reference := "61:v2" |} /\ uri_of {| pu_provider := "openml"; pu_reference := "61:v2" |} = "openml:61:v2" /\
  is_uri blank "toy" = false /\ is_uri blank " : x" = false.
Proof. vm_compute. repeat split; reflexivity. Qed.
