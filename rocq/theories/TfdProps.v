(* C174: the TensorFlow Datasets provider. *)
From Coq Require Import String Ascii Lia.
From Verif Require Import Prelude PyValue RegModel OmlModel OmlSpec OmlProofs HfModel HfSpec HfProofs TfdModel TfdSpec TfdProofs.
Local Open Scope string_scope.
Local Open Scope list_scope.
Local Notation length := List.length.

Section Props.
Variable o : Oracle.
(* name or name/version, with white space anywhere: that version is requested, else the data set without one *)
Theorem C174_reference : forall ref name version options, names ref name version ->
  let id := resolve o ref options in
  t_name id = name /\ t_version id = version /\ full_name id = match version with Some v => (str name ++ ":" ++ str v)%string | None => str name end /\
  t_supervised id = py_bool (get_else options "as_supervised" (PBool true)) /\ t_modality id = py_str o (get_else options "modality" (PStr "unknown")) /\ t_task id = py_str o (get_else options "task" (PStr "classification")).
Proof.
  intros ref name version options H. unfold resolve. rewrite split_same, (split_names _ _ _ H). cbv zeta. unfold full_name. cbn. destruct version; repeat split.
Qed.
(* the canonical URI of any reference names the same data set and version again *)
Theorem C174_uri : forall ref options options', let id := resolve o ref options in
  exists r, t_uri id = ("tfds:" ++ str r)%string /\ t_name (resolve o r options') = t_name id /\ t_version (resolve o r options') = t_version id /\ t_uri (resolve o r options') = t_uri id.
Proof.
  intros ref options options'. cbv zeta. destruct (split_name_version ref) as [name v] eqn:E. destruct (split_stripped _ _ _ E) as (H1 & H2 & H3).
  assert (E' := split_again name v H1 H2 H3). remember (match v with Some c => _ | None => _ end) as r eqn:Er in E'. exists r. unfold resolve. rewrite E, E'. cbn [t_uri t_name t_version]. split; [|repeat split]. rewrite Er. destruct v as [c|]; [rewrite str_slash; reflexivity|]. rewrite String_app_nil. reflexivity.
Qed.

Context {A : Type}.
(* the splits: train, and test if it can be loaded; every item in order, as a pair *)
Theorem C174_load : forall (tfds : @loader A) id items x y, tfds (full_name id) "train" (t_supervised id) = Ok items -> pairs items x y ->
  let calls := [(full_name id, "train", t_supervised id); (full_name id, "test", t_supervised id)] in
  (forall e, tfds (full_name id) "test" (t_supervised id) = Err e -> load_tfds (Some tfds) id = (Ok ((map Val x, map Val y), None), calls)) /\
  (forall items2 x2 y2, tfds (full_name id) "test" (t_supervised id) = Ok items2 -> pairs items2 x2 y2 -> load_tfds (Some tfds) id = (Ok ((map Val x, map Val y), Some (map Val x2, map Val y2)), calls)).
Proof.
  intros tfds id items x y HT HP calls. unfold load_tfds. rewrite HT. split.
  - intros e ->. rewrite (materialize_pairs _ _ _ HP). reflexivity.
  - intros items2 x2 y2 -> H2. rewrite (materialize_pairs _ _ _ HP), (materialize_pairs _ _ _ H2). reflexivity.
Qed.
(* what fails: no library, no training split, an item that is not made of two parts *)
Theorem C174_refused : forall id,
  load_tfds (A := A) None id = (Err OptionalDependencyError, []) /\
  forall tfds : @loader A, (forall e, tfds (full_name id) "train" (t_supervised id) = Err e -> load_tfds (Some tfds) id = (Err e, [(full_name id, "train", t_supervised id)])) /\
  forall items, tfds (full_name id) "train" (t_supervised id) = Ok items ->
    ((exists p, fst (load_tfds (Some tfds) id) = Ok p) <-> (forall i, In i items -> splits_in_two i) /\ forall items2, tfds (full_name id) "test" (t_supervised id) = Ok items2 -> forall i, In i items2 -> splits_in_two i) /\
    (forall e, fst (load_tfds (Some tfds) id) = Err e -> e = ValueError).
Proof.
  intros id. split; [reflexivity|]. intros tfds. unfold load_tfds. split; [intros e ->; reflexivity|]. intros items ->. cbn [fst]. rewrite <- materialize_can. destruct (materialize items) as [a|e] eqn:E; cbn [bind].
  - destruct (tfds (full_name id) "test" (t_supervised id)) as [t|e'].
    + destruct (materialize t) as [b|e'] eqn:E2; cbn [bind].
      * split; [|discriminate]. split; [|eauto]. intros _. split; [eauto|]. intros t' [= <-]. apply materialize_can. eauto.
      * split; [|intros e [= <-]; apply (materialize_err _ _ E2)]. split; [intros [p Hp]; discriminate|]. intros [_ H]. specialize (H t eq_refl). apply materialize_can in H. destruct H as [p Hp]. congruence.
    + split; [|discriminate]. split; [|eauto]. intros _. split; [eauto|]. intros t [= ].
  - split; [|intros e' [= <-]; apply (materialize_err _ _ E)]. split; [intros [p Hp]; discriminate|]. intros [[p Hp] _]. discriminate.
Qed.

(* Finding: whatever goes wrong with the test split, a lost connection too, gives a data set without test split and no error *)
Theorem C174_test_lost_refuted : forall (tfds : @loader A) id items x y e, tfds (full_name id) "train" (t_supervised id) = Ok items -> pairs items x y -> tfds (full_name id) "test" (t_supervised id) = Err e ->
  fst (load_tfds (Some tfds) id) = Ok ((map Val x, map Val y), None).
Proof. intros tfds id items x y e H1 H2 H3. rewrite (proj1 (C174_load tfds id items x y H1 H2) e H3). reflexivity. Qed.
(* Finding: without as_supervised, items with two features give the names of the features as samples and labels *)
Theorem C174_keys_refuted : forall (a b : A) id k k', t_supervised id = false ->
  fst (load_tfds (Some (fun _ s _ => if String.eqb s "train" then Ok [Features [(k, a); (k', b)]] else Err ValueError)) id) = Ok (([Key k], [Key k']), None).
Proof. reflexivity. Qed.
(* Finding: the limits, the filter and the seed of the options are ignored *)
Theorem C174_limits_refuted : forall ref k v, In k ["max_train_samples"; "max_test_samples"; "class_filter"; "seed"] -> resolve o ref [(k, v)] = resolve o ref [].
Proof. intros ref k v H. unfold resolve. destruct (split_name_version ref). cbn [In] in H. destruct H as [<-|[<-|[<-|[<-|[]]]]]; reflexivity. Qed.
(* Finding: no reference requests a configuration: name/configuration asks for a version of that name *)
Theorem C174_config_refuted : forall ref name config options, names ref name (Some config) -> full_name (resolve o ref options) = (str name ++ ":" ++ str config)%string.
Proof. intros ref name config options H. exact (proj1 (proj2 (proj2 (C174_reference ref name (Some config) options H)))). Qed.
End Props.
Example C174_applies : names (txt " mnist / 3.0.1") (txt "mnist") (Some (txt "3.0.1")) /\ pairs [Entries [1; 2]; Entries [3; 4]] [1; 3] [2; 4].
Proof.
  assert (B1 : blank (txt " ")) by (intros c [<-|[]]; cbn; tauto). assert (B0 : blank []) by (intros c []).
  split.
  - split; [apply cleanc_clean; reflexivity|]. split; [cbn; intros H; repeat (destruct H as [H|H]; [discriminate|]); exact H|]. split; [discriminate|]. split; [apply cleanc_clean; reflexivity|].
    exists (txt " "), (txt " "), (txt " "), []. repeat (split; [first [exact B1|exact B0]|]). reflexivity.
  - split; [reflexivity|]. split; [reflexivity|]. intros [|[|i]] Hi; cbn in *; [eauto 6|eauto 6|lia].
Qed.
Print Assumptions C174_reference.
Print Assumptions C174_uri.
Print Assumptions C174_load.
Print Assumptions C174_refused.
Print Assumptions C174_test_lost_refuted.
Print Assumptions C174_keys_refuted.
Print Assumptions C174_limits_refuted.
Print Assumptions C174_config_refuted.
