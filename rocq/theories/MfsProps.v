(* C176: the manifest beside a cached data set says what was written and what the data set holds. *)
From Coq Require Import String Lia.
From Verif Require Import Prelude PyValue MfsModel MfsSpec MfsProofs.
From Verif Require DatasetCacheModel.
Local Open Scope string_scope.
Local Open Scope list_scope.
Local Notation length := List.length.

(* A manifest that was written is read back: the same version, fingerprint and date, and mappings equal up to the order of their entries. *)
Theorem C176_read_back : forall T (dumps : pydict -> T) loads o m, keeps dumps loads ->
  (forall v, In v [m_identity m; m_dataset m; m_meta m; m_environment m] -> mapping v /\ real v) ->
  exists t m', write T dumps m = Ok t /\ read T loads o t = Ok m' /\ m_schema m' = m_schema m /\ m_fingerprint m' = m_fingerprint m /\ m_created m' = m_created m /\
    alike (m_identity m) (m_identity m') /\ alike (m_dataset m) (m_dataset m') /\ alike (m_meta m) (m_meta m') /\ alike (m_environment m) (m_environment m').
Proof.
  intros T dumps loads o m K H. destruct m as [sv fp cr i d t e]. cbn [m_schema m_fingerprint m_created m_identity m_dataset m_meta m_environment] in *.
  destruct (H i ltac:(cbn; auto)) as [(i0 & ->) Ri]. destruct (H d ltac:(cbn; auto)) as [(d0 & ->) Rd]. destruct (H t ltac:(cbn; auto)) as [(t0 & ->) Rt]. destruct (H e ltac:(cbn; auto)) as [(e0 & ->) Re].
  set (w := [("schema_version", PInt sv); ("fingerprint", PStr fp); ("created_at", PStr cr); ("identity", PDict i0); ("dataset", PDict d0); ("meta", PDict t0); ("environment", PDict e0)]).
  assert (N : NoDup (map fst w)) by (repeat constructor; cbn; intuition discriminate).
  assert (R : real (PDict w)) by (constructor; [exact N|repeat (constructor; [cbn; first [assumption|constructor]|]); constructor]).
  destruct (K w R) as (w' & L & A). pose proof (lookup_alike w w' N A) as Q.
  destruct (Q "schema_version") as (v1 & Q1 & A1). destruct (Q "fingerprint") as (v2 & Q2 & A2). destruct (Q "created_at") as (v3 & Q3 & A3). destruct (Q "identity") as (v4 & Q4 & A4). destruct (Q "dataset") as (v5 & Q5 & A5). destruct (Q "meta") as (v6 & Q6 & A6). destruct (Q "environment") as (v7 & Q7 & A7).
  apply alike_int_inv in A1. apply alike_str_inv in A2, A3. subst v1 v2 v3.
  exists (dumps w), {| m_schema := sv; m_fingerprint := fp; m_created := cr; m_identity := v4; m_dataset := v5; m_meta := v6; m_environment := v7 |}. split; [reflexivity|]. split; [|cbn; auto 10].
  apply read_ok. exists w', (PInt sv), (PStr fp), (PStr cr). cbn [m_schema m_fingerprint m_created m_identity m_dataset m_meta m_environment]. unfold entry_or_empty. rewrite <- !lookup_entry. repeat (split; [first [assumption|reflexivity|left; assumption]|]). left. assumption.
Qed.
(* What is read: the text is a mapping with the five needed entries; meta and environment are empty when they are missing. *)
Theorem C176_read : forall T (loads : T -> result pyval) o t m, read T loads o t = Ok m <->
  exists d s f c, loads t = Ok (PDict d) /\ entry d "schema_version" s /\ py_int o s = Ok (m_schema m) /\
    entry d "fingerprint" f /\ m_fingerprint m = py_str o f /\ entry d "created_at" c /\ m_created m = py_str o c /\
    entry d "identity" (m_identity m) /\ entry d "dataset" (m_dataset m) /\
    entry_or_empty d "meta" (m_meta m) /\ entry_or_empty d "environment" (m_environment m).
Proof. intros T loads o t m. apply read_ok. Qed.
(* A manifest with an unreadable version, or without an entry that is needed, is refused, the latter with a KeyError unless the version comes first; a text that is no mapping with a TypeError; an unreadable text with its own error. *)
Theorem C176_refused : forall T (loads : T -> result pyval) o t,
  (forall e, loads t = Err e -> read T loads o t = Err e) /\
  (forall v, loads t = Ok v -> ~ mapping v -> read T loads o t = Err TypeError) /\
  (forall d, loads t = Ok (PDict d) -> no_entry d "schema_version" -> read T loads o t = Err KeyError) /\
  (forall d s e, loads t = Ok (PDict d) -> entry d "schema_version" s -> py_int o s = Err e -> read T loads o t = Err e) /\
  (forall d s z k, loads t = Ok (PDict d) -> entry d "schema_version" s -> py_int o s = Ok z -> In k ["fingerprint"; "created_at"; "identity"; "dataset"] -> no_entry d k -> read T loads o t = Err KeyError).
Proof.
  intros T loads o t. unfold read, of_value, need. repeat apply conj.
  - intros e ->. reflexivity.
  - intros v -> N. cbn [bind]. destruct v as [| | | | | |d]; try reflexivity. destruct N. exists d. reflexivity.
  - intros d -> H. apply lookup_none in H. cbn [bind]. rewrite H. reflexivity.
  - intros d s e -> H E. apply lookup_entry in H. cbn [bind]. rewrite H. cbn [bind]. rewrite E. reflexivity.
  - intros d s z k -> H E Hk N. apply lookup_entry in H. apply lookup_none in N. cbn [bind]. rewrite H. cbn [bind]. rewrite E. cbn [bind]. cbn [In] in Hk.
    destruct Hk as [<-|[<-|[<-|[<-|[]]]]]; rewrite N; cbn [bind]; [reflexivity| | |]; destruct (lookup d "fingerprint"); cbn [bind]; try reflexivity; destruct (lookup d "created_at"); cbn [bind]; try reflexivity; destruct (lookup d "identity"); reflexivity.
Qed.
(* The summary of a new manifest: at the place of every array its type, its shape exactly when it can be read, and its dtype exactly when it can be read. *)
Theorem C176_summary : forall schema fp now python identity d place a, in_data d place a ->
  let m := build schema fp now python identity d in
  at_path (m_dataset m) (place ++ ["type"]) (PStr (a_type a)) /\
  (forall s, at_path (m_dataset m) (place ++ ["shape"]) (PList (map PInt s)) <-> a_shape a = Some (Ok s)) /\
  (forall t, at_path (m_dataset m) (place ++ ["dtype"]) (PStr t) <-> a_dtype a = Some (Ok t)).
Proof.
  intros schema fp now python identity d place a H m. subst m. cbn [build m_dataset]. repeat split.
  - apply walk_path. rewrite walk_app, (data_walk d place a H). reflexivity.
  - intros X. apply walk_path in X. rewrite walk_app, (data_walk d place a H) in X. apply shape_walk, X.
  - intros X. apply walk_path. rewrite walk_app, (data_walk d place a H). apply shape_walk, X.
  - intros X. apply walk_path in X. rewrite walk_app, (data_walk d place a H) in X. apply dtype_walk, X.
  - intros X. apply walk_path. rewrite walk_app, (data_walk d place a H). apply dtype_walk, X.
Qed.
(* Parts that are not there are null: the test part, the edges, the masks. *)
Theorem C176_absent : forall schema fp now python identity d, let s := m_dataset (build schema fp now python identity d) in
  (at_path s ["test"] PNone <-> d_test d = None) /\
  (at_path s ["train"; "edges"] PNone <-> p_edges (d_train d) = None) /\
  (at_path s ["train"; "masks"] PNone <-> p_masks (d_train d) = None).
Proof.
  intros schema fp now python identity d s. subst s. cbn [build m_dataset]. rewrite <- !walk_path. destruct d as [[x y ed mk] te me mt]. cbn. repeat split.
  - destruct te; [discriminate|reflexivity].
  - intros ->. reflexivity.
  - destruct ed; [discriminate|reflexivity].
  - intros ->. reflexivity.
  - destruct mk; [discriminate|reflexivity].
  - intros ->. reflexivity.
Qed.
(* A new manifest carries what it was given and can be written; metadata that are no mapping leave the name of their type. *)
Theorem C176_build : forall T (dumps : pydict -> T) schema fp now python identity d, let m := build schema fp now python identity d in
  m_schema m = schema /\ m_fingerprint m = fp /\ m_created m = now /\ m_identity m = PDict identity /\ m_environment m = PDict [("python", PStr python)] /\
  (~ mapping (d_meta d) -> m_meta m = PDict [("__type__", PStr (d_meta_type d))]) /\
  (forall e, d_meta d = PDict e -> m_meta m = PDict (DatasetCacheModel.mapping_to_jsonable e)) /\
  exists t, write T dumps m = Ok t.
Proof.
  intros T dumps schema fp now python identity d m. subst m. unfold build. cbn [m_schema m_fingerprint m_created m_identity m_dataset m_meta m_environment]. repeat split.
  - intros N. destruct (d_meta d) as [| | | | | |e]; try reflexivity. destruct N. exists e. reflexivity.
  - intros e ->. reflexivity.
  - unfold write, to_dict. cbn. destruct (d_meta d); cbn; eexists; reflexivity.
Qed.
(* Refuted: "a manifest that is read has a whole number as version and mappings in it".  A version 2.5 is read as 2, and any value is accepted as identity. *)
Theorem C176_unchecked_refuted : forall v, exists d, forall o, exists m, of_value o (PDict d) = Ok m /\ entry d "schema_version" (PFloat (SpecFloat.S754_finite false 5 (-1))) /\ m_schema m = 2 /\ m_identity m = v.
Proof.
  intros v. exists [("schema_version", PFloat (SpecFloat.S754_finite false 5 (-1))); ("fingerprint", PStr "f"); ("created_at", PStr "t"); ("identity", v); ("dataset", PNone)]. intros o. eexists. split; [reflexivity|]. split; [apply lookup_entry; reflexivity|]. split; reflexivity.
Qed.

(* Concrete cases *)
(* a format that writes the entries in the other order *)
Example C176_format_exists : keeps (fun d : pydict => rev d) (fun t => Ok (PDict t)).
Proof.
  assert (S : forall v, real v -> alike v v).
  { fix S 2. intros v [| | | | |l H|d _ H]; try constructor.
    - clear -S H. induction H; constructor; auto.
    - apply (alike_dict d d d); [apply Permutation_refl|]. clear -S H. induction H; constructor; auto. }
  intros d H. exists (rev d). split; [reflexivity|]. apply (alike_dict d d); [apply Permutation_rev|]. inversion H as [| | | | | |d0 _ F]; subst. clear -S F. induction F; constructor; auto.
Qed.
Definition ints : arr := {| a_type := "ndarray"; a_shape := Some (Ok [3; 2]); a_dtype := Some (Ok "int64") |}.
Definition odd : arr := {| a_type := "Graph"; a_shape := Some (Err ValueError); a_dtype := None |}.
Definition sample : data := {| d_train := {| p_X := Some ints; p_y := None; p_edges := Some odd; p_masks := Some [("val", None); ("train", Some ints)] |}; d_test := None; d_meta := PDict [("source", PStr "toy")]; d_meta_type := "dict" |}.
Example C176_sample : in_data sample ["train"; "masks"; "train"] ints /\ in_data sample ["train"; "edges"] odd /\
  (forall v, In v [m_identity (build 1 "f" "t" "3.12" [] sample); m_dataset (build 1 "f" "t" "3.12" [] sample); m_meta (build 1 "f" "t" "3.12" [] sample); m_environment (build 1 "f" "t" "3.12" [] sample)] -> mapping v /\ real v).
Proof.
  split; [|split].
  - constructor. apply (in_masks _ [("val", None); ("train", Some ints)]); [reflexivity|repeat constructor; cbn; intuition discriminate|cbn; auto].
  - constructor. constructor. reflexivity.
  - intros v [<-|[<-|[<-|[<-|[]]]]]; (split; [eexists; reflexivity|]); cbn; repeat (constructor; cbn; try (intuition discriminate)).
Qed.

Print Assumptions C176_read_back.
Print Assumptions C176_read.
Print Assumptions C176_refused.
Print Assumptions C176_summary.
Print Assumptions C176_absent.
Print Assumptions C176_build.
Print Assumptions C176_unchecked_refuted.
