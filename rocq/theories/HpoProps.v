(* Search spaces, patches and trial selection: the properties. *)
From Coq Require Import String Ascii SpecFloat.
From Verif Require Import Prelude FloatModel PyValue DecString HpoModel HpoSpec HpoProofs.
Local Open Scope Z_scope.
Local Open Scope list_scope.

(* ------------------------------------------------------------------------------------- C30 *)
(* C30: a space is accepted exactly when it is well-formed *)
Theorem C30_space_accepted_iff sort o d : sorts sort -> unique_keys (PDict d) ->
  ((exists space, from_dict sort o d = Ok space) <-> valid_space o (PDict d) /\ lookup d "dist" = None).
Proof. intros Hs. apply from_dict_accepts, Hs. Qed.
(* C30: grid search runs exactly when every declared parameter has a list of values *)
Theorem C30_grid_runs_iff sort o d space : sorts sort -> unique_keys (PDict d) -> from_dict sort o d = Ok space ->
  ((exists trials, iter_grid sort space = Ok trials) <-> (forall p x, declares o (PDict d) p x -> candidates x <> None)).
Proof. intros Hs. apply iter_grid_total, Hs. Qed.
(* C30: the trials are the Cartesian product: one per choice of a candidate for each declared parameter, in
   product order, numbered from 0; a trial's patch has the chosen values at the declared places and nothing else *)
Theorem C30_grid_is_product sort o d space trials : sorts sort -> unique_keys (PDict d) ->
  from_dict sort o d = Ok space -> iter_grid sort space = Ok trials ->
  exists params choices,
    NoDup (map fst params) /\
    (forall p vs, In (p, vs) params <-> exists x, declares o (PDict d) p x /\ candidates x = Some vs) /\
    StronglySorted earlier choices /\ NoDup choices /\
    (forall ix, In ix choices <-> valid_choice (map snd params) ix) /\
    map t_index trials = arange (lenZ trials) /\
    Forall2 (fun ix t => holds (t_patch t) (picked params ix) /\ t_params t = flatten_patch sort (t_patch t)) choices trials.
Proof.
  intros Hs Hu H E. destruct (iter_grid_spec sort Hs o d space trials Hu H E) as (ps & cs & A & B & C & D & F & G).
  exists ps, cs. repeat split; auto; try apply C; try apply D. apply sorted_nodup, B.
Qed.

Local Open Scope string_scope.
Definition ex_oracle : Oracle := {| parse_int := fun _ => None; parse_float := fun _ => None; show := fun _ => "?" |}.
Definition ex_space : pydict :=
  [("method", PDict [("params", PDict [("lr", PList [PInt 1; PInt 2]);
                                        ("mode", PDict [("dist", PStr "choice"); ("values", PList [PStr "a"; PStr "b"; PStr "c"])])])])].
Definition same (l : list string) : list string := l.
Example C30_example_sorts : sorts same.
Proof. intros l. apply Permutation_refl. Qed.
Example C30_example_keys : unique_keys (PDict ex_space).
Proof.
  repeat first [apply uk_dict | apply uk_list | (apply uk_other; discriminate) | apply Forall_cons | apply Forall_nil
               | apply NoDup_cons | apply NoDup_nil | (cbn; intuition discriminate)].
Qed.
Example C30_example : exists space trials, from_dict same ex_oracle ex_space = Ok space /\ iter_grid same space = Ok trials /\
  List.length trials = 6%nat /\ map t_index trials = [0; 1; 2; 3; 4; 5]%Z /\
  t_patch (nth 4 trials {| t_index := 0; t_patch := []; t_params := [] |}) =
    [("method", PDict [("params", PDict [("lr", PInt 2); ("mode", PStr "b")])])].
Proof. eexists. eexists. split; [vm_compute; reflexivity|]. split; [vm_compute; reflexivity|]. vm_compute. repeat split. Qed.

(* ------------------------------------------------------------------------------------- C31 *)
(* C31: after a merge the scalar (or list) at a place is the patch's if the patch has one there, and otherwise
   the base's if the patch leaves that place alone *)
Theorem C31_merge_scalars base patch p v : unique_keys (PDict patch) -> is_dict v = false ->
  (get_path (PDict (deep_merge base patch)) p = Some v <->
   get_path (PDict patch) p = Some v \/ (get_path (PDict base) p = Some v /\ untouched patch p)).
Proof. apply merge_scalar. Qed.
(* C31: the same for the places that hold mappings *)
Theorem C31_merge_mappings base patch p : unique_keys (PDict patch) ->
  ((exists d, get_path (PDict (deep_merge base patch)) p = Some (PDict d)) <->
   (exists d, get_path (PDict patch) p = Some (PDict d)) \/
   ((exists d, get_path (PDict base) p = Some (PDict d)) /\ untouched patch p)).
Proof. apply merge_mapping. Qed.
(* C31: applying a patch twice is applying it once *)
Theorem C31_idempotent base patch : unique_keys (PDict patch) ->
  deep_merge (deep_merge base patch) patch = deep_merge base patch.
Proof. apply deep_merge_idem. Qed.
(* C31: the empty mapping is neutral on both sides *)
Theorem C31_identity d : deep_merge d [] = d /\ (unique_keys (PDict d) -> deep_merge [] d = d).
Proof. split; [reflexivity|]. intros H. apply deep_merge_empty_base, uk_nodup, H. Qed.
(* C31: merging is not associative: a scalar in the middle patch erases what was below it *)
Theorem C31_associativity_refuted : exists a b c,
  unique_keys (PDict a) /\ unique_keys (PDict b) /\ unique_keys (PDict c) /\
  deep_merge (deep_merge a b) c <> deep_merge a (deep_merge b c).
Proof.
  exists [("x", PDict [("p", PInt 1)])], [("x", PInt 5)], [("x", PDict [("q", PInt 2)])].
  split; [|split; [|split]].
  1-3: repeat first [apply uk_dict | (apply uk_other; discriminate) | apply Forall_cons | apply Forall_nil
               | apply NoDup_cons | apply NoDup_nil | (cbn; intuition discriminate)].
  vm_compute. discriminate.
Qed.
(* C31: flattening a patch whose keys have no dot lists exactly its leaves, each under its dotted path, once *)
Theorem C31_flatten_exact sort patch : sorts sort -> unique_keys (PDict patch) -> dot_free (PDict patch) ->
  NoDup (map fst (flatten_patch sort patch)) /\
  forall s v, lookup (flatten_patch sort patch) s = Some v <->
    exists p, p <> [] /\ join p = s /\ get_path (PDict patch) p = Some v /\ flat_leaf v.
Proof. intros Hs Hu Hd. split; [apply flatten_nodup|]. intros s v. apply flatten_spec; assumption. Qed.
(* C31: different places have different dotted names *)
Theorem C31_names_distinct p q : Forall (fun k => count_char "."%char k = 0%nat) p ->
  Forall (fun k => count_char "."%char k = 0%nat) q -> p <> [] -> q <> [] -> join p = join q -> p = q.
Proof. intros. apply join_inj; assumption. Qed.
(* C31: with a dot in a key two leaves get the same name and one is lost *)
Theorem C31_flatten_dots_refuted : exists patch, unique_keys (PDict patch) /\
  get_path (PDict patch) ["a"; "b"] = Some (PInt 1) /\ get_path (PDict patch) ["a.b"] = Some (PInt 2) /\
  List.length (flatten_patch same patch) = 1%nat.
Proof.
  exists [("a", PDict [("b", PInt 1)]); ("a.b", PInt 2)]. split.
  - repeat first [apply uk_dict | (apply uk_other; discriminate) | apply Forall_cons | apply Forall_nil
               | apply NoDup_cons | apply NoDup_nil | (cbn; intuition discriminate)].
  - vm_compute. repeat split.
Qed.
Example C31_example : deep_merge [("a", PInt 1); ("b", PDict [("x", PInt 2); ("y", PInt 3)])]
                                 [("b", PDict [("y", PInt 9)]); ("c", PNone)] =
                      [("a", PInt 1); ("b", PDict [("x", PInt 2); ("y", PInt 9)]); ("c", PNone)] /\
  untouched [("b", PDict [("y", PInt 9)]); ("c", PNone)] ["b"; "x"] /\
  flatten_patch same [("a", PInt 1); ("b", PDict [("x", PInt 2); ("y", PDict [])])] =
    [("a", PInt 1); ("b.x", PInt 2); ("b.y", PDict [])].
Proof.
  split; [reflexivity|]. split; [|reflexivity]. intros q r E. destruct q as [|k1 [|k2 [|k3 q]]]; cbn in E.
  - cbn. rewrite <- E. discriminate.
  - injection E as <- <-. cbn. discriminate.
  - injection E as <- <- _. cbn. exact I.
  - discriminate.
Qed.
Example C31_example_dot_free : dot_free (PDict [("a", PInt 1); ("b", PDict [("x", PInt 2)])]).
Proof.
  repeat first [apply df_dict | (apply df_other; reflexivity) | apply Forall_cons | apply Forall_nil | split | reflexivity].
Qed.

(* ------------------------------------------------------------------------------------- C52 *)
(* C52: random search yields n_trials trials numbered from 0; each assigns to every declared parameter one
   value it allows, and nothing else *)
Theorem C52_random_trials sort o d space {S} (R : Rng S) seed n_trials trials : sorts sort -> rng_ok R ->
  unique_keys (PDict d) -> from_dict sort o d = Ok space -> iter_random sort R space seed n_trials = Ok trials ->
  lenZ trials = n_trials /\ map t_index trials = arange n_trials /\
  Forall (fun t => t_params t = flatten_patch sort (t_patch t) /\
    exists values, NoDup (map fst values) /\ holds (t_patch t) values /\
      (forall p, In p (map fst values) <-> exists x, declares o (PDict d) p x) /\
      (forall p v, In (p, v) values -> exists x, declares o (PDict d) p x /\ allowed x v)) trials.
Proof.
  intros Hs HR Hu H E. unfold iter_random in E. destruct (Z.leb_spec n_trials 0) as [|Hn]; [discriminate|].
  destruct (random_trials_spec sort Hs o R HR d space Hu H _ _ _ _ E) as (A & B & C).
  rewrite Z2Nat.id in B by lia. split; [unfold lenZ; rewrite A; lia|]. split; [|exact C].
  rewrite B. transitivity (map (fun j : Z => j) (arange n_trials)); [reflexivity|apply map_id].
Qed.
(* C52: the values are the generator's successive draws: parameter after parameter, trial after trial *)
Theorem C52_draws_in_sequence sort o d space {S} (R : Rng S) seed n_trials trials : sorts sort -> rng_ok R ->
  unique_keys (PDict d) -> from_dict sort o d = Ok space -> iter_random sort R space seed n_trials = Ok trials ->
  exists places vals final, NoDup (map fst places) /\ (forall p x, In (p, x) places <-> declares o (PDict d) p x) /\
    Forall2 (fun t vs => List.length vs = List.length places /\ holds (t_patch t) (combine (map fst places) vs)) trials vals /\
    draws R seed (concat (map (combine (map snd places)) vals)) final.
Proof.
  intros Hs HR Hu H E. unfold iter_random in E. destruct (Z.leb_spec n_trials 0) as [|Hn]; [discriminate|].
  destruct (from_dict_spec sort Hs o d space Hu H) as (H1 & _ & H3 & _ & _).
  destruct (random_trials_draws sort Hs o R HR d space Hu H _ _ _ _ E) as (vals & s' & F & D).
  exists (map (fun l => (lf_path l, param_of l)) space), vals, s'. rewrite !map_map, map_length. cbn [fst snd]. split; [exact H3|]. split; [|split; [exact F|exact D]].
  intros p x. rewrite in_map_iff. split.
  - intros (l & [= <- <-] & Hin). apply H1. eauto.
  - intros Hd. apply H1 in Hd. destruct Hd as (l & Hin & <- & <-). eauto.
Qed.
(* C52: asking for fewer trials with the same seed gives a prefix of the same trials *)
Theorem C52_prefix_stable sort {S} (R : Rng S) space seed m n trials : (0 < m <= n)%Z ->
  iter_random sort R space seed n = Ok trials -> iter_random sort R space seed m = Ok (firstn (Z.to_nat m) trials).
Proof.
  intros Hm. unfold iter_random. destruct (Z.leb_spec n 0); [lia|]. destruct (Z.leb_spec m 0); [lia|].
  apply random_trials_prefix. lia.
Qed.
(* C52: it is refused for a non-positive number of trials and otherwise never fails, unless the generator,
   log or exp does *)
Theorem C52_runs sort o d space {S} (R : Rng S) seed n_trials : sorts sort -> unique_keys (PDict d) -> from_dict sort o d = Ok space ->
  (n_trials <= 0 -> iter_random sort R space seed n_trials = Err HpoError)%Z /\
  ((forall s a b, exists x, fst (r_uniform R s a b) = Ok x) -> (forall x, exists y, m_log R x = Ok y) ->
   (forall x, exists y, m_exp R x = Ok y) -> (0 < n_trials)%Z ->
   exists trials, iter_random sort R space seed n_trials = Ok trials).
Proof.
  intros Hs Hu H. unfold iter_random. split.
  - intros Hn. destruct (Z.leb_spec n_trials 0); [reflexivity|lia].
  - intros H1 H2 H3 Hn. destruct (Z.leb_spec n_trials 0); [lia|]. eapply random_total; eassumption.
Qed.
(* a generator: a counter, always within the bounds *)
Definition ex_rng : Rng Z :=
  {| r_int := fun s a b => ((a + s mod (b - a))%Z, (s + 1)%Z);
     r_uniform := fun s a b => (if f64_leb a a && f64_leb a b then Ok a else Err OverflowError, (s + 1)%Z);
     m_log := fun x => Ok x; m_exp := fun x => Ok x |}.
Example C52_example_rng : rng_ok ex_rng.
Proof.
  split.
  - intros s a b H. cbn. pose proof (Z.mod_pos_bound s (b - a)). lia.
  - intros s a b x s'. cbn. destruct (f64_leb a a && f64_leb a b) eqn:E; [|discriminate]. intros H. injection H as <- _.
    apply andb_prop in E. exact E.
Qed.
Definition ex_space2 : pydict :=
  [("a", PDict [("dist", PStr "randint"); ("low", PInt 3); ("high", PInt 7)]);
   ("b", PDict [("dist", PStr "uniform"); ("low", PInt 0); ("high", PInt 1)])].
Example C52_example : exists space trials, from_dict same ex_oracle ex_space2 = Ok space /\
  iter_random same ex_rng space 1%Z 3%Z = Ok trials /\
  map t_patch trials = [[("a", PInt 4); ("b", PFloat f64_zero)]; [("a", PInt 6); ("b", PFloat f64_zero)]; [("a", PInt 4); ("b", PFloat f64_zero)]].
Proof. eexists. eexists. split; [vm_compute; reflexivity|]. split; vm_compute; reflexivity. Qed.

(* ------------------------------------------------------------------------------------- C53 *)
(* C53: the reported trial is one no other beats, NaN counting as the worst score, and the earliest of those
   that tie with it, in whatever order the trials are looked at *)
Theorem C53_best_trial maximize scores :
  (scores = [] -> best_trial maximize scores = Err ValueError) /\
  (scores <> [] -> exists i s, best_trial maximize scores = Ok i /\ In (i, s) scores /\
    forall j t, In (j, t) scores ->
      ~ beats maximize (counted maximize t) (counted maximize s) /\ (counted maximize t = counted maximize s -> i <= j)%Z).
Proof. apply best_trial_spec. Qed.
Example C53_example : best_trial true [(0, Nan); (1, Fin 4); (2, Fin 9); (3, Fin 9); (4, MinusInf)]%Z = Ok 2%Z /\
  best_trial false [(0, Nan); (1, PlusInf)]%Z = Ok 0%Z.
Proof. split; reflexivity. Qed.

Print Assumptions C30_space_accepted_iff.
Print Assumptions C30_grid_runs_iff.
Print Assumptions C30_grid_is_product.
Print Assumptions C31_merge_scalars.
Print Assumptions C31_merge_mappings.
Print Assumptions C31_idempotent.
Print Assumptions C31_identity.
Print Assumptions C31_associativity_refuted.
Print Assumptions C31_flatten_exact.
Print Assumptions C31_names_distinct.
Print Assumptions C31_flatten_dots_refuted.
Print Assumptions C52_random_trials.
Print Assumptions C52_prefix_stable.
Print Assumptions C52_runs.
Print Assumptions C53_best_trial.
Print Assumptions C52_draws_in_sequence.
