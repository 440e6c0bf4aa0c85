(* Property theorems about reading plans: C167 (preprocessing) and C168 (views).  Specification vocabulary: PplanSpec.v and, for C168, ViewsSpec.v. *)
From Coq Require Import String SpecFloat.
From Verif Require Import Prelude FloatModel PreprocModel ViewsModel PyValue ViewsSpec PplanModel PplanSpec PplanProofs.
Local Open Scope string_scope.
Local Open Scope Z_scope.
Local Open Scope list_scope.
Local Notation length := List.length.

(* a plan is read as it is written, by the library and by the benchmark *)
Theorem C167_written : forall o v p, plan_written v p -> bench_plan o v = Ok p /\ load_plan o v = Ok p.
Proof. exact plan_written_ok. Qed.
Print Assumptions C167_written.

(* a plan that was dumped is read back as it was *)
Theorem C167_round_trip :
  forall o p, (forall c, In c (pl_steps p) -> c_id c <> "") -> load_plan o (PDict (to_dict p)) = Ok p /\ bench_plan o (PDict (to_dict p)) = Ok p.
Proof. intros o p H. destruct (plan_written_ok o _ _ (to_dict_written p H)) as [A B]. auto. Qed.
Print Assumptions C167_round_trip.

(* what the benchmark accepts the library reads alike *)
Theorem C167_agree : forall o v p, bench_plan o v = Ok p -> load_plan o v = Ok p.
Proof. exact stricter. Qed.
Print Assumptions C167_agree.

(* the benchmark refuses unknown keys, steps without name, with two names or with other parameters than a mapping *)
Theorem C167_refused : forall o v p, bad_plan v -> bench_plan o v <> Ok p.
Proof. exact bad_plan_err. Qed.
Print Assumptions C167_refused.

(* the library refuses plans and steps that are not mappings, steps that are neither a list nor an empty text, steps with an empty name or with a list of parameters *)
Theorem C167_library_refused : forall o v p, bad_library_plan v -> load_plan o v <> Ok p.
Proof. exact bad_library_err. Qed.
Print Assumptions C167_library_refused.
Example C167_library_refused_applies : bad_library_plan (PDict [("steps", PNone)]) /\ bad_library_plan (PDict [("steps", PStr "text.lower")]) /\ bad_library_plan (PDict [("steps", PList [PStr "text.lower"])]).
Proof.
  split; [|split].
  - eapply Lib_steps; [reflexivity| |]; intros; discriminate.
  - eapply Lib_steps; [reflexivity| |]; intros; discriminate.
  - eapply Lib_step; [reflexivity|left; reflexivity|]. apply Lib_kind. intros; discriminate.
Qed.

(* an empty text of steps is a plan without steps *)
Theorem C167_library_empty : forall o k, load_plan o (PDict [("output_key", PStr k); ("steps", PStr "")]) = Ok {| pl_steps := []; pl_key := k |}.
Proof. reflexivity. Qed.
Print Assumptions C167_library_empty.

Definition ppx_registry (id : string) : option spec := if String.eqb id "text.lower" then Some {| sp_fittable := false; sp_modalities := ["text"]; sp_consumes := []; sp_produces := [] |} else None.
Definition ppx_plan (modalities enabled : pyval) : pyval :=
  PDict [("steps", PList [PDict [("id", PStr "text.lower"); ("modalities", modalities); ("enabled", enabled)]])].

(* a mapping of modalities stands for its keys, and a number is refused *)
Theorem C167_modalities :
  forall o enabled, (forall d p, d <> [] -> bench_plan o (ppx_plan (PDict d) enabled) = Ok p -> map c_modalities (pl_steps p) = [map fst d]) /\
  (forall n p, n <> 0%Z -> bench_plan o (ppx_plan (PInt n) enabled) <> Ok p) /\ (forall d, exists p, bench_plan o (ppx_plan (PDict d) enabled) = Ok p).
Proof.
  intros o enabled. split; [|split].
  - intros [|e d] p Hd; [congruence|]. cbn. intros [= <-]. cbn. f_equal. f_equal. rewrite !map_map. apply map_ext. reflexivity.
  - intros n p Hn. cbn. unfold texts. cbn. destruct (Z.eqb_spec n 0); [contradiction|]. discriminate.
  - intros [|e d]; eexists; reflexivity.
Qed.
Print Assumptions C167_modalities.

(* a single modality written as a text is taken for its letters: the step is left out of the very data it is meant for, without an error *)
Theorem C167_letters_refuted :
  forall o, exists p q s, bench_plan o (ppx_plan (PStr "text") (PBool true)) = Ok p /\ resolve ppx_registry "text" 0 [] (pl_steps p) = Ok [] /\
  bench_plan o (ppx_plan (PList [PStr "text"]) (PBool true)) = Ok q /\ resolve ppx_registry "text" 0 [] (pl_steps q) = Ok [s] /\ r_id s = "text.lower".
Proof.
  intros o. eexists. eexists. eexists. split; [reflexivity|]. split; [reflexivity|]. split; [reflexivity|]. split; reflexivity.
Qed.
Print Assumptions C167_letters_refuted.

(* a step switched off with a text stays on *)
Theorem C167_switch_refuted :
  forall o, exists p s, bench_plan o (ppx_plan PNone (PStr "false")) = Ok p /\ resolve ppx_registry "text" 0 [] (pl_steps p) = Ok [s] /\ r_id s = "text.lower".
Proof. intros o. eexists. eexists. split; [reflexivity|]. split; reflexivity. Qed.
Print Assumptions C167_switch_refuted.

(* the library reads a step without name as the step named None, and passes over misspelled keys *)
Theorem C167_library_refuted :
  forall o, show o PNone = "None" ->
  (exists p, load_plan o (PDict [("steps", PList [PDict []])]) = Ok p /\ map c_id (pl_steps p) = ["None"]) /\
  (exists p, load_plan o (PDict [("steps", PList [PDict [("id", PStr "text.lower"); ("enable", PBool false)]])]) = Ok p /\ map c_enabled (pl_steps p) = [true]) /\
  bad_plan (PDict [("steps", PList [PDict []])]) /\ bad_plan (PDict [("steps", PList [PDict [("id", PStr "text.lower"); ("enable", PBool false)]])]).
Proof.
  intros o Ho. split; [|split; [|split]].
  - eexists. unfold load_plan. cbn [get_or lookup find fst snd String.eqb Ascii.eqb Bool.eqb bind each load_step]. unfold or_else, get_or, lookup. cbn. rewrite Ho. cbn.
    split; reflexivity.
  - eexists. split; reflexivity.
  - eapply Plan_step; [reflexivity|left; reflexivity|]. apply Step_nameless; left; left; reflexivity.
  - eapply Plan_step; [reflexivity|left; reflexivity|]. eapply (Step_key _ "enable" (PBool false)); [reflexivity|right; left; reflexivity|].
    cbn. intros [H|[H|[H|[H|[H|[H|[]]]]]]]; discriminate.
Qed.
Print Assumptions C167_library_refuted.

(* ---- C168 *)
(* a plan of views is read as it is written, if it is well formed, and refused otherwise *)
Theorem C168_written :
  forall o v vs, views_written v vs -> (views_plan o v = Ok vs <-> well_formed_plan vs) /\ (~ well_formed_plan vs -> views_plan o v = Err ViewsError).
Proof. exact views_written_ok. Qed.
Print Assumptions C168_written.

(* whatever is accepted is well formed and has the views of the list, in order, under the names written there *)
Theorem C168_accepted :
  forall o v vs, views_plan o v = Ok vs -> well_formed_plan vs /\
  exists d items, v = PDict d /\ lookup d "views" = Some (PList items) /\
  Forall2 (fun item s => exists e x, item = PDict e /\ lookup e "name" = Some x /\ v_name s = py_str o x) items vs.
Proof. exact views_sound. Qed.
Print Assumptions C168_accepted.

(* unknown keys at any level, views without name and bad plans of preprocessing are refused *)
Theorem C168_refused : forall o v vs, bad_views v -> views_plan o v <> Ok vs.
Proof. exact bad_views_err. Qed.
Print Assumptions C168_refused.

(* a view whose name is null is the view named None *)
Theorem C168_null_name_refuted :
  forall o, show o PNone = "None" -> exists vs, views_plan o (PDict [("views", PList [PDict [("name", PNone)]; PDict [("name", PStr "b")]])]) = Ok vs /\ map v_name vs = ["None"; "b"].
Proof.
  intros o Ho. eexists. split.
  - unfold views_plan. cbn [check_unknown_keys keys map fst forallb memS existsb String.eqb Ascii.eqb Bool.eqb orb andb bind get_or lookup find snd bench_views bench_view py_str].
    cbn. rewrite Ho. cbn. reflexivity.
  - reflexivity.
Qed.
Print Assumptions C168_null_name_refuted.

(* columns that are no whole numbers are cut off: 2.75 selects column 2 *)
Theorem C168_fraction_refuted :
  forall o, exists s, column_spec o (PDict [("mode", PStr "indices"); ("indices", PList [PFloat (S754_finite false 11 (-2))])]) = Ok s /\ cs_indices s = [2] /\ well_formed_columns s.
Proof. intros o. eexists. split; [reflexivity|]. split; [reflexivity|]. cbn. split; [discriminate|]. intros i [<-|[]]. lia. Qed.
Print Assumptions C168_fraction_refuted.

Example C167_example :
  exists p, plan_written (PDict [("output_key", PStr "features.X"); ("steps", PList [PDict [("id", PStr "a"); ("params", PDict [("k", PInt 3)])];
                                 PDict [("step_id", PStr "b"); ("modalities", PList [PStr "text"]); ("enabled", PBool false)]])]) p /\
  map c_id (pl_steps p) = ["a"; "b"] /\ map c_enabled (pl_steps p) = [true; false].
Proof.
  exists {| pl_steps := [{| c_id := "a"; c_params := [("k", PInt 3)]; c_modalities := []; c_requires := []; c_enabled := true |};
                         {| c_id := "b"; c_params := []; c_modalities := ["text"]; c_requires := []; c_enabled := false |}]; pl_key := "features.X" |}.
  split; [|split; reflexivity]. eexists. eexists. split; [reflexivity|]. split; [intros k v [[= <- _]|[[= <- _]|[]]]; cbn; auto|].
  split; [left; reflexivity|]. split; [left; reflexivity|]. constructor; [|constructor; [|constructor]].
  - eexists. split; [reflexivity|]. split; [intros k v [[= <- _]|[[= <- _]|[]]]; cbn; auto|]. split; [split; [discriminate|left; split; reflexivity]|].
    split; [left; reflexivity|]. split; [right; split; [left; reflexivity|reflexivity]|]. split; [right; split; [left; reflexivity|reflexivity]|]. right. split; reflexivity.
  - eexists. split; [reflexivity|]. split; [intros k v [[= <- _]|[[= <- _]|[[= <- _]|[]]]]; cbn; auto 7|]. split; [split; [discriminate|right; left; split; reflexivity]|].
    split; [right; split; [left; reflexivity|reflexivity]|]. split; [left; reflexivity|]. split; [right; split; [left; reflexivity|reflexivity]|]. left. reflexivity.
Qed.
Example C168_example :
  exists vs, views_written (PDict [("views", PList [PDict [("name", PStr "a"); ("columns", PDict [("mode", PStr "indices"); ("indices", PList [PInt 0; PInt 2])])];
                                                    PDict [("name", PStr "b"); ("columns", PDict [("mode", PStr "complement"); ("complement_of", PStr "a")])]])]) vs /\
  well_formed_plan vs /\ map v_name vs = ["a"; "b"].
Proof.
  exists [{| v_name := "a"; v_preprocess := None;
             v_columns := Some {| cs_mode := Indices; cs_indices := [0; 2]; cs_fraction := one_half; cs_complement_of := None; cs_seed_offset := 0 |} |};
          {| v_name := "b"; v_preprocess := None;
             v_columns := Some {| cs_mode := Complement; cs_indices := []; cs_fraction := one_half; cs_complement_of := Some "a"; cs_seed_offset := 0 |} |}].
  split; [|split].
  - eexists. eexists. split; [reflexivity|]. split; [intros k v [[= <- _]|[]]; cbn; auto|]. split; [left; reflexivity|]. constructor; [|constructor; [|constructor]].
    + eexists. split; [reflexivity|]. split; [intros k v [[= <- _]|[[= <- _]|[]]]; cbn; auto|]. split; [reflexivity|]. split; [discriminate|].
      split; [right; split; [left; reflexivity|reflexivity]|]. split; [|right; left; reflexivity]. left. eexists. eexists. split; [reflexivity|]. split; [|reflexivity].
      eexists. split; [reflexivity|]. split; [intros k v [[= <- _]|[[= <- _]|[]]]; cbn; auto|]. split; [left; eexists; split; [reflexivity|constructor]|].
      split; [left; reflexivity|]. split; [right; split; reflexivity|]. split; [right; split; [left; reflexivity|reflexivity]|]. right. split; reflexivity.
    + eexists. split; [reflexivity|]. split; [intros k v [[= <- _]|[[= <- _]|[]]]; cbn; auto|]. split; [reflexivity|]. split; [discriminate|].
      split; [right; split; [left; reflexivity|reflexivity]|]. split; [|right; left; reflexivity]. left. eexists. eexists. split; [reflexivity|]. split; [|reflexivity].
      eexists. split; [reflexivity|]. split; [intros k v [[= <- _]|[[= <- _]|[]]]; cbn; auto 6|]. split; [left; eexists; split; [reflexivity|constructor]|].
      split; [right; split; [left; reflexivity|reflexivity]|]. split; [right; split; reflexivity|].
      split; [left; exists "a"; split; [discriminate|split; reflexivity]|]. right. split; reflexivity.
  - apply ViewsProofs.validate_plan_ok. reflexivity.
  - reflexivity.
Qed.
Definition ppx_oracle : Oracle := {| parse_int := fun _ => None; parse_float := fun _ => None; show := fun v => match v with PNone => "None" | _ => "?" end |}.
Example ppx_none : show ppx_oracle PNone = "None". Proof. reflexivity. Qed.
