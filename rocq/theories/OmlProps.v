(* C159: OpenML references and the requests made for them. *)
From Coq Require Import String Ascii Lia ZifyBool ZifyNat.
From Verif Require Import Prelude ListFacts BundleProofs PyValue RegModel RegProofs OmlModel OmlSpec OmlProofs.
Local Open Scope string_scope.
Local Open Scope Z_scope.
Local Open Scope list_scope.
Local Notation length := List.length.

Section Props.
Variable o : Oracle.
Notation parse_ref := (parse_ref o).
Notation resolve := (resolve o).
Notation request_of := (request_of o).

(* A reference of digits only, with white space around it or not, is the number of a data set. *)
Theorem C159_reference_id b t b' n : blank b -> blank b' -> number t n -> parse_ref (b ++ t ++ b') = Ok [("data_id", PInt n)].
Proof.
  intros Hb Hb' Hn; apply number_spec in Hn; destruct Hn as (D & <-); unfold OmlModel.parse_ref; rewrite strip_around; [|apply blank_b; exact Hb| |apply blank_b; exact Hb'].
  - rewrite D; reflexivity.
  - assert (Z : forall c, is_digit c = true -> is_space c = false) by (intros c; destruct c as [[] [] [] [] [] [] [] []]; vm_compute; congruence).
    unfold isdigit in D; apply andb_true_iff in D; destruct D as (_ & Hd); rewrite forallb_forall in Hd; intros a r; split; intros ->; apply Z, Hd; [left; reflexivity|apply in_or_app; right; left; reflexivity].
Qed.

(* A reference written as pairs key=value, separated by commas, with white space anywhere around keys and values, is read as
   those pairs: the last value of a key counts, data_id has to be a number, a version of digits is one, the rest is text. *)
Theorem C159_reference kvs ts : kvs <> [] -> Forall2 written kvs ts ->
  (forall v, last_value kvs "data_id" = Some v -> parse_int o (str v) = None -> parse_ref (join ts) = Err ValueError) /\
  ((forall v, last_value kvs "data_id" = Some v -> parse_int o (str v) <> None) ->
   exists d, parse_ref (join ts) = Ok d /\ forall k, match last_value kvs k with None => dget d k = None | Some v => exists w, converted o k v w /\ dget d k = Some w end).
Proof.
  intros Hn F.
  assert (Hts : ts <> []) by (intros ->; inversion F; subst; destruct (Hn eq_refl)).
  assert (C : Forall (fun t => ~ In ","%char t) ts) by (clear - F; induction F; constructor; [eapply written_no_comma; eassumption|assumption]).
  assert (D : isdigit (strip (join ts)) = false).
  { destruct F as [|kv t kvs ts Hw F]; [destruct (Hts eq_refl)|]; apply (isdigit_no "="%char); [|reflexivity]; apply strip_keeps; [|reflexivity].
    apply (join_in _ _ t); [left; reflexivity|]; destruct Hw as (b1 & b2 & b3 & b4 & _ & _ & _ & _ & _ & _ & _ & _ & _ & ->).
    apply in_or_app; right; apply in_or_app; right; apply in_or_app; right; left; reflexivity. }
  assert (P : parse_ref (join ts) = let out := fold_left put_pair kvs [] in
    do out <- match dget out "data_id" with Some v => do i <- py_int o v; Ok (dput out "data_id" (PInt i)) | None => Ok out end;
    Ok (match dget out "version" with Some (PStr v) => if isdigit (txt v) then dput out "version" (PInt (int_of (txt v))) else out | _ => out end)).
  { unfold OmlModel.parse_ref; rewrite D, split_strip, split_join by assumption; rewrite (fold_written kvs ts F []); reflexivity. }
  rewrite P; cbv zeta; rewrite (fold_get kvs [] "data_id"); cbn [dget]; split.
  - intros v -> E; cbn [py_int bind]; rewrite E; reflexivity.
  - intros Hi; set (out := fold_left put_pair kvs []).
    assert (S1 : exists out1, match (match last_value kvs "data_id" with Some v => Some (PStr (str v)) | None => None end) with Some v => do i <- py_int o v; Ok (dput out "data_id" (PInt i)) | None => Ok out end = Ok out1 /\
      (forall k, k <> "data_id" -> dget out1 k = dget out k) /\
      match last_value kvs "data_id" with Some v => exists i, parse_int o (str v) = Some i /\ dget out1 "data_id" = Some (PInt i) | None => dget out1 "data_id" = None end).
    { destruct (last_value kvs "data_id") as [v|] eqn:E.
      - specialize (Hi v eq_refl); cbn [py_int bind]; destruct (parse_int o (str v)) as [i|] eqn:Ei; [|destruct (Hi eq_refl)]; cbn [bind].
        exists (dput out "data_id" (PInt i)); split; [reflexivity|split].
        + intros k Hk; rewrite dput_get; destruct (String.eqb_spec "data_id" k); [congruence|reflexivity].
        + exists i; split; [reflexivity|]; rewrite dput_get, String.eqb_refl; reflexivity.
      - exists out; split; [reflexivity|split; [reflexivity|]]; unfold out; rewrite fold_get, E; reflexivity. }
    destruct S1 as (out1 & -> & G1 & Gd); cbn [bind]; eexists; split; [reflexivity|].
    assert (Gv : dget out1 "version" = match last_value kvs "version" with Some v => Some (PStr (str v)) | None => None end) by (rewrite G1 by discriminate; unfold out; rewrite fold_get; reflexivity).
    intros k; destruct (String.eqb_spec k "data_id") as [->|Nd].
    + assert (R : dget (match dget out1 "version" with Some (PStr v) => if isdigit (txt v) then dput out1 "version" (PInt (int_of (txt v))) else out1 | _ => out1 end) "data_id" = dget out1 "data_id").
      { destruct (dget out1 "version") as [[| | | |s| |]|]; try reflexivity; destruct (isdigit (txt s)); [rewrite dput_get; reflexivity|reflexivity]. }
      rewrite R; destruct (last_value kvs "data_id") as [v|]; [|exact Gd]; destruct Gd as (i & Ei & Gd); exists (PInt i); split; [|exact Gd].
      split; [intros _; exists i; split; [exact Ei|reflexivity]|split; [discriminate|intros H; destruct (H eq_refl)]].
    + rewrite Gv; destruct (String.eqb_spec k "version") as [->|Nv].
      * destruct (last_value kvs "version") as [v|] eqn:Ev; [|exact Gv]; rewrite txt_str.
        destruct (isdigit v) eqn:Ed; [exists (PInt (int_of v)); split; [|rewrite dput_get, String.eqb_refl; reflexivity]|exists (PStr (str v)); split; [|exact Gv]].
        -- split; [discriminate|split; [intros _; left; exists (int_of v); split; [apply number_spec; split; [exact Ed|reflexivity]|reflexivity]|intros _ H; destruct (H eq_refl)]].
        -- split; [discriminate|split; [intros _; right; split; [intros n Hn'; apply number_spec in Hn'; destruct Hn'; congruence|reflexivity]|intros _ H; destruct (H eq_refl)]].
      * assert (R : dget (match (match last_value kvs "version" with Some v => Some (PStr (str v)) | None => None end) with Some (PStr v) => if isdigit (txt v) then dput out1 "version" (PInt (int_of (txt v))) else out1 | _ => out1 end) k = dget out k).
        { rewrite <- (G1 k Nd); destruct (last_value kvs "version") as [t|]; [|reflexivity]; destruct (isdigit (txt (str t))); [|reflexivity]; rewrite dput_get; destruct (String.eqb_spec "version" k); [congruence|reflexivity]. }
        rewrite R; unfold out; rewrite fold_get; destruct (last_value kvs k) as [v|]; [|reflexivity]; exists (PStr (str v)); split; [|reflexivity].
        split; [contradiction|split; [contradiction|reflexivity]].
Qed.

Lemma resolve_get ref options base id : NoDup (map fst options) -> parse_ref ref = Ok base -> resolve ref options = Ok id ->
  i_data_id id = (match setting base options "data_id" with Some v => v | None => PNone end) /\ i_name id = (match setting base options "name" with Some v => v | None => PNone end) /\
  i_kversion id = (match setting base options "version" with Some v => v | None => PNone end) /\ i_frame id = (match setting base options "as_frame" with Some v => py_bool v | None => false end) /\
  i_target id = (match setting base options "target_column" with Some v => v | None => PNone end).
Proof.
  intros N Eb E; unfold OmlModel.resolve in E; rewrite Eb in E; cbn [bind] in E; apply bind_ok in E; destruct E as ((uri, i) & _ & [= <-]); cbn.
  unfold none_get, get_else; rewrite !merge_get by exact N; repeat split; destruct (setting base options "as_frame"); reflexivity.
Qed.

(* What is asked of OpenML. Options win over the reference. A data_id, if there is one, is all that counts; else the data set is
   looked up by the first of name, dataset and data_name that says something, else by the reference itself. The version is
   passed on when there is one. *)
Theorem C159_request ref options base : NoDup (map fst options) -> parse_ref ref = Ok base ->
  let get := setting base options in
  (forall v i, get "data_id" = Some v -> py_int o v = Ok i -> exists id q, resolve ref options = Ok id /\ request_of id = Ok q /\ q_which q = ById i /\
     q_version q = (match get "version" with None | Some PNone => None | Some v => Some v end) /\ q_frame q = (match get "as_frame" with Some v => py_bool v | None => false end) /\
     i_id id = show o (PInt i) /\ i_uri id = ("openml:" ++ show o (PInt i))%string) /\
  (forall v e, get "data_id" = Some v -> py_int o v = Err e -> resolve ref options = Err e) /\
  (get "data_id" = None -> texts (get "name") -> texts (get "dataset") -> texts (get "data_name") ->
     exists id q, resolve ref options = Ok id /\ request_of id = Ok q /\ q_which q = ByName (first_text [get "name"; get "dataset"; get "data_name"] (str ref)) /\
     q_version q = (match get "version" with None | Some PNone => None | Some v => Some v end) /\ q_frame q = (match get "as_frame" with Some v => py_bool v | None => false end) /\
     i_id id = first_text [get "name"; get "dataset"; get "data_name"] (str ref) /\ i_uri id = ("openml:name=" ++ first_text [get "name"; get "dataset"; get "data_name"] (str ref))%string).
Proof.
  intros N Eb get; split; [|split].
  - intros v i Hv Hi; unfold get in *; clear get.
    assert (E : exists id, resolve ref options = Ok id /\ i_id id = show o (PInt i) /\ i_uri id = ("openml:" ++ show o (PInt i))%string).
    { unfold OmlModel.resolve; rewrite Eb; cbn [bind]; rewrite merge_get, Hv, Hi by exact N; cbn [bind]; eexists; split; [reflexivity|split; reflexivity]. }
    destruct E as (id & E & E1 & E2); destruct (resolve_get _ _ _ _ N Eb E) as (D & _ & V & Fr & _).
    exists id; unfold OmlModel.request_of; rewrite D, V, Fr, Hv.
    destruct v; try (rewrite Hi; cbn [bind]); try discriminate Hi; (eexists; split; [exact E|split; [reflexivity|cbn [q_which q_version q_frame]; repeat split; try assumption; destruct (setting base options "version") as [[]|]; reflexivity]]).
  - intros v e Hv He; unfold OmlModel.resolve; rewrite Eb; cbn [bind]; rewrite merge_get by exact N; unfold get in Hv; rewrite Hv, He; reflexivity.
  - intros Hd T1 T2 T3; unfold get in *; clear get.
    assert (E : exists id, resolve ref options = Ok id /\ i_id id = first_text [setting base options "name"; setting base options "dataset"; setting base options "data_name"] (str ref) /\
       i_uri id = ("openml:name=" ++ first_text [setting base options "name"; setting base options "dataset"; setting base options "data_name"] (str ref))%string).
    { unfold OmlModel.resolve; rewrite Eb; cbn [bind]; rewrite merge_get, Hd by exact N; cbn [bind]; eexists; split; [reflexivity|]; cbn [i_id i_uri]; unfold none_get; rewrite !merge_get by exact N.
      cbn [first_text]; destruct T1 as [-> | [-> | (s1 & ->)]]; destruct T2 as [-> | [-> | (s2 & ->)]]; destruct T3 as [-> | [-> | (s3 & ->)]];
        try destruct s1; try destruct s2; try destruct s3; split; reflexivity. }
    destruct E as (id & E & E1 & E2); destruct (resolve_get _ _ _ _ N Eb E) as (D & Nm & V & Fr & _).
    exists id; unfold OmlModel.request_of; rewrite D, Nm, V, Fr, Hd; cbn [bind]; eexists; split; [exact E|split; [reflexivity|]]; cbn [q_which q_version q_frame].
    split; [|split; [destruct (setting base options "version") as [[]|]; reflexivity|split; [reflexivity|split; assumption]]].
    f_equal; destruct T1 as [T1 | [T1 | (s1 & T1)]]; rewrite ?T1 in *; [exact E1|exact E1|].
    cbn [py_bool first_text] in *; destruct s1; [exact E1|reflexivity].
Qed.

(* The target column asked for is part of what identifies the data set, yet the request never says it: whatever it is, OpenML is
   asked for the same thing. *)
Theorem C159_target_refuted ref options options' base id id' : NoDup (map fst options) -> NoDup (map fst options') -> parse_ref ref = Ok base ->
  (forall k, k <> "target_column" -> setting base options k = setting base options' k) -> resolve ref options = Ok id -> resolve ref options' = Ok id' ->
  request_of id = request_of id' /\ (setting base options "target_column" <> Some PNone -> setting base options' "target_column" = None -> setting base options "target_column" <> None -> i_target id <> i_target id').
Proof.
  intros N N' Eb H E E'; destruct (resolve_get _ _ _ _ N Eb E) as (D & Nm & V & Fr & Tg); destruct (resolve_get _ _ _ _ N' Eb E') as (D' & Nm' & V' & Fr' & Tg').
  rewrite <- (H "data_id") in D' by discriminate; rewrite <- (H "name") in Nm' by discriminate; rewrite <- (H "version") in V' by discriminate; rewrite <- (H "as_frame") in Fr' by discriminate.
  split.
  - assert (I : i_id id = i_id id').
    { unfold OmlModel.resolve in E, E'; rewrite Eb in E, E'; cbn [bind] in E, E'; apply bind_ok in E; destruct E as ((u, i) & Ei & [= <-]); apply bind_ok in E'; destruct E' as ((u', i') & Ei' & [= <-]); cbn.
      unfold none_get in *; rewrite !merge_get in Ei by exact N; rewrite !merge_get in Ei' by exact N'.
      rewrite <- (H "data_id"), <- (H "name"), <- (H "dataset"), <- (H "data_name") in Ei' by discriminate; congruence. }
    unfold OmlModel.request_of; rewrite D, Nm, V, Fr, I, <- D', <- Nm', <- V', <- Fr'; reflexivity.
  - intros H1 H2 H3; rewrite Tg, Tg', H2; destruct (setting base options "target_column") as [v|]; [|destruct (H3 eq_refl)]; intros ->; destruct (H1 eq_refl).
Qed.

(* A name followed by pairs, as in "adult,version=2", is not a name: the data set is looked up under the whole reference. *)
Theorem C159_bare_name_refuted n : n <> [] -> clean n -> ~ In "="%char n -> ~ In ","%char n ->
  exists id q, resolve (n ++ txt ",version=2") [] = Ok id /\ request_of id = Ok q /\ q_which q = ByName (str (n ++ txt ",version=2")) /\ q_version q = Some (PInt 2).
Proof.
  intros Hn Hc Ne Nc.
  assert (P : parse_ref (n ++ txt ",version=2") = Ok [("version", PInt 2)]).
  { unfold OmlModel.parse_ref.
    assert (D : isdigit (strip (n ++ txt ",version=2")) = false) by (apply (isdigit_no "="%char); [|reflexivity]; apply strip_keeps; [|reflexivity]; apply in_or_app; right; cbn; tauto).
    rewrite D, split_strip; change (txt ",version=2") with (","%char :: txt "version=2"); rewrite split_at by exact Nc; cbn [map]; rewrite (strip_clean n) by (apply clean_b; exact Hc).
    cbn [filter]; destruct (Nat.eqb_spec (length n) 0) as [E|_]; [apply length_zero_iff_nil in E; contradiction|]; cbn [negb fold_left].
    change (filter _ _) with [txt "version=2"]; cbn [fold_left].
    assert (A : add_part [] n = []) by (unfold add_part; rewrite cut_none by exact Ne; reflexivity); rewrite A; reflexivity. }
  destruct (C159_request (n ++ txt ",version=2") [] [("version", PInt 2)] (NoDup_nil _) P) as (_ & _ & H).
  destruct (H eq_refl (or_introl eq_refl) (or_introl eq_refl) (or_introl eq_refl)) as (id & q & E & R & W & V & _).
  exists id, q; repeat split; assumption.
Qed.

(* Any text after as_frame= in a reference turns data frames on, "False" included. *)
Theorem C159_flag_refuted kvs ts v : kvs <> [] -> Forall2 written kvs ts -> last_value kvs "as_frame" = Some v -> v <> [] -> last_value kvs "data_id" = None ->
  exists id, resolve (join ts) [] = Ok id /\ i_frame id = true.
Proof.
  intros Hn F Hv Hne Hd; destruct (C159_reference kvs ts Hn F) as (_ & H); destruct H as (d & E & G); [rewrite Hd; discriminate|].
  assert (Rs : exists id, resolve (join ts) [] = Ok id).
  { unfold OmlModel.resolve; rewrite E; cbn [bind merge fold_left]; pose proof (G "data_id") as Gd; rewrite Hd in Gd; rewrite Gd; cbn [bind]; eexists; reflexivity. }
  destruct Rs as (id & Er); exists id; split; [exact Er|]; destruct (resolve_get _ [] _ _ (NoDup_nil _) E Er) as (_ & _ & _ & -> & _).
  pose proof (G "as_frame") as Ga; rewrite Hv in Ga; destruct Ga as (w & Cw & Ga); unfold setting; cbn [dget]; rewrite Ga.
  destruct Cw as (_ & _ & Cw); rewrite (Cw ltac:(discriminate) ltac:(discriminate)); destruct v; [destruct (Hne eq_refl)|reflexivity].
Qed.
End Props.

(* Examples *)
Definition ox : Oracle := {| parse_int := fun s => if String.eqb s "61" then Some 61 else None; parse_float := fun _ => None; show := fun v => match v with PInt 61 => "61" | _ => "other" end |}.
Example C159_ex_number : number (txt "61") 61 /\ blank (txt " ").
Proof. split; [apply number_spec; split; reflexivity|intros c [<-|[]]; apply is_space_spec; reflexivity]. Qed.
Example C159_ex_id : parse_ref ox (txt " 61 ") = Ok [("data_id", PInt 61)].
Proof. reflexivity. Qed.
Example C159_ex_pairs : Forall2 written [(txt "name", txt "adult"); (txt "version", txt "2"); (txt "as_frame", txt "False")] [txt "name = adult"; txt " version=2"; txt "as_frame=False"] /\
  join [txt "name = adult"; txt " version=2"; txt "as_frame=False"] = txt "name = adult, version=2,as_frame=False".
Proof.
  assert (Cl : forall s, match txt s with [] => true | a :: _ => negb (is_space a) end && match rev (txt s) with [] => true | a :: _ => negb (is_space a) end = true -> clean (txt s)).
  { intros s H a r; apply andb_true_iff in H; destruct H as (H1 & H2); split; intros E; apply not_space_spec; rewrite E in *; [|rewrite rev_app_distr in H2; cbn in H2; clear H1]; [cbn in H1|]; destruct (is_space a); try discriminate; reflexivity. }
  assert (Bl : forall b, forallb is_space b = true -> blank b) by (intros b H c Hc; rewrite forallb_forall in H; apply is_space_spec, H; exact Hc).
  assert (Ni : forall c l, existsb (Ascii.eqb c) l = false -> ~ In c l) by (intros c l H Hc; assert (existsb (Ascii.eqb c) l = true) by (apply existsb_exists; exists c; split; [exact Hc|apply Ascii.eqb_refl]); congruence).
  split; [|reflexivity]; repeat constructor.
  - exists [], (txt " "), (txt " "), []; repeat split; cbn [fst snd]; try (apply Bl; reflexivity); try (apply Ni; reflexivity); try (apply Cl; reflexivity).
  - exists (txt " "), [], [], []; repeat split; cbn [fst snd]; try (apply Bl; reflexivity); try (apply Ni; reflexivity); try (apply Cl; reflexivity).
  - exists [], [], [], []; repeat split; cbn [fst snd]; try (apply Bl; reflexivity); try (apply Ni; reflexivity); try (apply Cl; reflexivity).
Qed.
Example C159_ex_request : exists id q, resolve ox (txt "name=adult,version=2") [("version", PInt 1); ("target_column", PStr "age")] = Ok id /\ request_of ox id = Ok q /\ q_which q = ByName "adult" /\ q_version q = Some (PInt 1) /\ i_target id = PStr "age".
Proof. eexists _, _; repeat split. Qed.

Print Assumptions C159_reference_id.
Print Assumptions C159_reference.
Print Assumptions C159_request.
Print Assumptions C159_target_refuted.
Print Assumptions C159_bare_name_refuted.
Print Assumptions C159_flag_refuted.
