(* Proofs about sweeps and the start of a run (C151, C152). *)
From Coq Require Import String Ascii ZifyBool ZifyNat.
From Verif Require Import Prelude FloatModel PyValue HpoModel HpoSpec HpoProofs LimitsModel LimitsSpec LimitsProofs BenchIoModel BenchIoSpec BenchIoProofs BenchIoProps BenchRunProofs SchemaModel SchemaSpec SchemaProofs.
Local Open Scope string_scope.
Local Open Scope Z_scope.
Local Open Scope list_scope.

(* ----- sweeps ----- *)
Lemma filter_uk d f : unique_keys (PDict d) -> unique_keys (PDict (filter f d)).
Proof.
  intros U. pose proof (uk_nodup _ U) as N. pose proof (uk_items _ U) as F. rewrite Forall_forall in F. apply uk_dict.
  - clear U F. induction d as [|[k v] d IH]; [constructor|]. cbn in N. inversion_clear N as [|? ? N1 N2]. cbn [filter]. destruct (f (k, v)); [|auto]. cbn. constructor; [|auto].
    intros X. apply N1. apply in_map_iff in X. destruct X as (x & E & X). apply filter_In in X. apply in_map_iff. exists x. split; [exact E|tauto].
  - apply Forall_forall. intros x X. apply filter_In in X. apply F. tauto.
Qed.
Lemma int_uk z : unique_keys (PInt z). Proof. apply uk_other; discriminate. Qed.
Lemma str_uk s : unique_keys (PStr s). Proof. apply uk_other; discriminate. Qed.
Lemma seed_section_uk seed d s : unique_keys (PDict d) -> unique_keys (PDict (seed_section seed d s)).
Proof.
  intros U. unfold seed_section. destruct (lookup d s) as [v|] eqn:E; [|exact U]. destruct v; try exact U. apply dset_uk; [exact U|]. apply dset_uk; [eapply uk_child; eassumption|apply int_uk].
Qed.
Lemma swept_run_uk raw seed n : unique_keys (PDict raw) -> unique_keys (PDict (swept_run raw seed (Some n))).
Proof.
  intros U. unfold swept_run. cbv zeta. apply dset_uk; [|apply str_uk]. apply dset_uk; [|apply int_uk]. unfold dpop. apply filter_uk.
  destruct (lookup raw "run") as [v|] eqn:E; [|apply nil_uk]. destruct v; try apply nil_uk. eapply uk_child; eassumption.
Qed.
Lemma apply_seed_uk raw seed n : unique_keys (PDict raw) -> unique_keys (PDict (apply_global_seed raw seed (Some n))).
Proof.
  intros U. unfold apply_global_seed. fold (swept_run raw seed (Some n)). assert (U0 : unique_keys (PDict (dset raw "run" (PDict (swept_run raw seed (Some n)))))) by (apply dset_uk; [exact U|apply swept_run_uk, U]).
  revert U0. generalize (dset raw "run" (PDict (swept_run raw seed (Some n)))). generalize seeded_sections. intros l. induction l as [|s l IH]; intros d U0; [exact U0|]. cbn [fold_left]. apply IH, seed_section_uk, U0.
Qed.
Definition final_run (raw : pydict) (base : string) (seed : Z) (root : string) : pydict := dset (swept_run raw seed (Some (sweep_run_name base seed))) "output_dir" (PStr root).
Lemma sweep_raw_eq raw base seed root : sweep_raw raw base seed root = dset (apply_global_seed raw seed (Some (sweep_run_name base seed))) "run" (PDict (final_run raw base seed root)).
Proof. unfold sweep_raw, final_run. cbv zeta. rewrite lookup_swept. reflexivity. Qed.
Lemma sweep_raw_uk raw base seed root : unique_keys (PDict raw) -> unique_keys (PDict (sweep_raw raw base seed root)).
Proof. intros U. rewrite sweep_raw_eq. apply dset_uk; [apply apply_seed_uk, U|]. apply dset_uk; [apply swept_run_uk, U|apply str_uk]. Qed.
Lemma lookup_sweep raw base seed root k : lookup (sweep_raw raw base seed root) k =
  if String.eqb k "run" then Some (PDict (final_run raw base seed root))
  else if memS k seeded_sections then match lookup raw k with Some (PDict b) => Some (PDict (dset b "seed" (PInt seed))) | x => x end
  else lookup raw k.
Proof.
  rewrite sweep_raw_eq, lookup_dset, lookup_swept. destruct (String.eqb_spec "run" k) as [<-|N]; [reflexivity|]. destruct (String.eqb_spec k "run"); [congruence|reflexivity].
Qed.
Lemma lookup_final raw r base seed root k : lookup raw "run" = Some (PDict r) -> lookup (final_run raw base seed root) k =
  if String.eqb k "output_dir" then Some (PStr root) else if String.eqb k "seeds" then None else if String.eqb k "seed" then Some (PInt seed)
  else if String.eqb k "name" then Some (PStr (sweep_run_name base seed)) else lookup r k.
Proof.
  intros E. unfold final_run. rewrite lookup_dset, lookup_swept_run, E. destruct (String.eqb_spec "output_dir" k) as [<-|N]; [reflexivity|]. destruct (String.eqb_spec k "output_dir"); [congruence|].
  destruct (String.eqb k "seeds"); [reflexivity|]. destruct (String.eqb k "seed"); [reflexivity|]. destruct (String.eqb k "name"); reflexivity.
Qed.
Lemma in_keys d k : In k (keys d) <-> lookup d k <> None.
Proof.
  split.
  - intros H E. apply memS_keys in E. apply memS_In in H. congruence.
  - intros H. apply memS_In. destruct (memS k (keys d)) eqn:M; [reflexivity|]. apply memS_keys in M. contradiction.
Qed.
Lemma only_seeded b seed ks : only b ks -> In "seed" ks -> only (dset b "seed" (PInt seed)) ks.
Proof.
  intros O I k H. apply in_keys in H. rewrite lookup_dset in H. destruct (String.eqb_spec "seed" k) as [E|]; [rewrite <- E; exact I|]. apply O. apply in_keys. exact H.
Qed.
Lemma dset_other d k v k' : k <> k' -> lookup (dset d k v) k' = lookup d k'.
Proof. intros N. rewrite lookup_dset. destruct (String.eqb_spec k k'); [contradiction|reflexivity]. Qed.
Lemma written_app s t : written s -> written (s ++ t).
Proof.
  intros (c & H & B). exists c. split; [|exact B]. clear B. induction s as [|a s IH]; [destruct H|]. cbn in *. destruct H as [->|H]; auto.
Qed.

Ltac keyed := unfold text_or_none, text_at, positive_or_none, whole_or_none, flag, mapping_at, list_at, printed, absent in *; rewrite ?dset_other by discriminate.

Section Sweep.
Variable o : Oracle.
Variable metrics : list string.

Lemma plan_swept d c seed : reads_plan d c -> reads_plan (dset d "seed" (PInt seed)) {| pl_seed := Some seed; pl_plan := pl_plan c |}.
Proof.
  intros (O & P & N & _). split; [apply only_seeded; [exact O|cbn; auto]|]. cbn. split; [rewrite dset_other by discriminate; exact P|]. split; [exact N|].
  exists (PInt seed). split; [rewrite lookup_dset; reflexivity|left; reflexivity].
Qed.
Lemma seed_found d seed : whole_or_none (dset d "seed" (PInt seed)) "seed" (Some seed).
Proof. exists (PInt seed). split; [rewrite lookup_dset; reflexivity|left; reflexivity]. Qed.

Lemma sweep_reads raw c base seed root : reads o metrics raw c -> written base -> reads o metrics (sweep_raw raw base seed root) (swept (sweep_run_name base seed) root seed c).
Proof.
  intros (O & (r & Er & Hr) & Hl & Hd & Hs & Hp & Hv & Hg & Ha & Hm & He & Hq) W.
  split. { intros k H. apply in_keys in H. rewrite lookup_sweep in H. destruct (String.eqb_spec k "run") as [E|]; [rewrite E; cbn; auto|]. apply O, in_keys.
           destruct (memS k seeded_sections); [|exact H]. destruct (lookup raw k); [discriminate|exact H]. }
  unfold required, maybe, limits_at. cbn [xc_run xc_limits xc_dataset xc_sampling xc_preprocess xc_method xc_eval xc_graph xc_views xc_aug xc_search swept].
  split.
  { exists (final_run raw base seed root). split; [rewrite lookup_sweep; reflexivity|]. destruct Hr as (Or & Hn & _ & _ & _ & Hf & Hlog & Hb & Hc & Himp).
    pose proof (lookup_final raw r base seed root) as L.
    unfold reads_run. cbn [rn_name rn_seed rn_output rn_seeds rn_fail_fast rn_log rn_bench rn_custom].
    split. { intros k H. apply in_keys in H. rewrite (L k Er) in H. repeat match type of H with (if ?b then _ else _) <> _ => destruct b eqn:?Hb end; try (apply Or, in_keys; exact H);
             match goal with X : String.eqb k _ = true |- _ => apply String.eqb_eq in X; subst k; cbn; tauto end. }
    split; [split; [rewrite (L _ Er); reflexivity|apply written_app, W]|]. split; [right; exists (PInt seed); split; [rewrite (L _ Er); reflexivity|reflexivity]|].
    split; [right; exists (PStr root); split; [rewrite (L _ Er); reflexivity|reflexivity]|]. split; [left; rewrite (L _ Er); reflexivity|].
    split; [unfold flag in *; rewrite (L _ Er); exact Hf|]. split; [unfold text_or_none, text_at, absent in *; rewrite (L _ Er); exact Hlog|].
    split; [unfold flag in *; rewrite (L _ Er); exact Hb|]. split; [unfold flag in *; rewrite (L _ Er); exact Hc|exact Himp]. }
  split. { unfold limits_at in Hl. rewrite lookup_sweep. exact Hl. }
  split. { destruct Hd as (d & E & H). exists d. split; [rewrite lookup_sweep; exact E|exact H]. }
  split. { destruct Hs as (d & E & H). exists (dset d "seed" (PInt seed)). split; [rewrite lookup_sweep, E; reflexivity|apply plan_swept, H]. }
  split. { destruct Hp as (d & E & Od & P & N & _ & F & C & D). exists (dset d "seed" (PInt seed)). split; [rewrite lookup_sweep, E; reflexivity|].
           unfold reads_preprocess. cbn [pc_seed pc_fit_on pc_cache pc_plan pc_cache_dir]. split; [apply only_seeded; [exact Od|cbn; auto]|]. split; [rewrite dset_other by discriminate; exact P|]. split; [exact N|]. split; [apply seed_found|].
           keyed. auto. }
  split. { unfold maybe in Hv. destruct (xc_views c) as [v|]; cbn [seeded option_map]; [|rewrite lookup_sweep; cbn; rewrite Hv; reflexivity].
           destruct Hv as (d & E & H). exists (dset d "seed" (PInt seed)). split; [rewrite lookup_sweep, E; reflexivity|apply plan_swept, H]. }
  split. { unfold maybe in Hg. destruct (xc_graph c) as [v|]; cbn [option_map]; [|rewrite lookup_sweep; cbn; rewrite Hg; reflexivity].
           destruct Hg as (d & E & Od & A & _ & B & C & D). exists (dset d "seed" (PInt seed)). split; [rewrite lookup_sweep, E; reflexivity|].
           unfold reads_graph. cbn [gc_enabled gc_seed gc_cache gc_spec gc_cache_dir]. split; [apply only_seeded; [exact Od|cbn; auto]|]. split; [keyed; exact A|]. split; [apply seed_found|]. keyed. auto. }
  split. { unfold maybe in Ha. destruct (xc_aug c) as [v|]; cbn [option_map]; [|rewrite lookup_sweep; cbn; rewrite Ha; reflexivity].
           destruct Ha as (d & E & Od & A & _ & B & C & D & F). exists (dset d "seed" (PInt seed)). split; [rewrite lookup_sweep, E; reflexivity|].
           unfold reads_aug. cbn [ac_enabled ac_seed ac_mode ac_weak ac_strong ac_modality]. split; [apply only_seeded; [exact Od|cbn; auto]|]. split; [keyed; exact A|]. split; [apply seed_found|]. keyed. auto. }
  split. { cbn [rn_custom]. destruct Hm as (d & E & H). exists d. split; [rewrite lookup_sweep; exact E|exact H]. }
  split. { destruct He as (d & E & H). exists d. split; [rewrite lookup_sweep; exact E|exact H]. }
  unfold maybe in Hq. destruct (xc_search c) as [v|]; cbn [option_map]; [|rewrite lookup_sweep; cbn; rewrite Hq; reflexivity].
  destruct Hq as (d & E & Od & A & K & _ & T & R & [Rp Rr] & (ob & Sob & Hob) & Sp). exists (dset d "seed" (PInt seed)). split; [rewrite lookup_sweep, E; reflexivity|].
  unfold reads_search. cbn [sc_enabled sc_kind sc_seed sc_trials sc_repeats sc_split sc_metric sc_direction sc_aggregate sc_space]. split; [apply only_seeded; [exact Od|cbn; auto]|].
  split; [rewrite dset_other by discriminate; exact A|]. split; [rewrite dset_other by discriminate; exact K|]. split; [apply seed_found|].
  split; [keyed; exact T|]. split; [intros X; split; [discriminate|apply R, X]|]. split; [split; [exact Rp|keyed; exact Rr]|].
  split; [exists ob; split; [unfold section in *; rewrite dset_other by discriminate; exact Sob|exact Hob]|]. rewrite dset_other by discriminate. exact Sp.
Qed.
End Sweep.

(* ----- the start of a run ----- *)
Lemma step_name_iff o d i : (step_name o d = i /\ String.eqb (step_name o d) "" = false) <-> named o d i.
Proof.
  assert (S : forall k s, says_at o d k s <-> py_bool (get_or d k PNone) = true /\ s = py_str o (get_or d k PNone)).
  { intros k s. unfold says_at, get_or. destruct (lookup d k) as [v|]; split.
    - intros (w & [= <-] & H & E). auto.
    - intros [H E]. eauto.
    - intros (w & X & _). discriminate.
    - intros [X _]. discriminate X. }
  unfold named. rewrite !S. unfold step_name. cbv zeta. destruct (py_bool (get_or d "id" PNone)) eqn:Ea.
  - rewrite String.eqb_neq. split; [intros [<- N]; auto|]. intros [N [[_ ->]|[X _]]]; [auto|]. exfalso. apply (X (py_str o (get_or d "id" PNone))). apply S. auto.
  - destruct (py_bool (get_or d "step_id" PNone)) eqn:Eb.
    + rewrite String.eqb_neq. split.
      * intros [<- N]. split; [exact N|]. right. split; [|auto]. intros s X. apply S in X. destruct X; congruence.
      * intros [N [[X _]|[_ [_ ->]]]]; [discriminate|auto].
    + split; [intros [_ X]; discriminate X|]. intros [_ [[X _]|[_ [X _]]]]; discriminate.
Qed.
Lemma step_names_ok o l : forall ids, step_names o l = Ok ids <-> Forall2 (fun v i => exists d, v = PDict d /\ named o d i) l ids.
Proof.
  induction l as [|v l IH]; intros ids; cbn [step_names].
  - split; [intros [= <-]; constructor|intros F; inversion F; reflexivity].
  - destruct v; try (split; [discriminate|intros F; inversion F as [|? ? ? ? (q & X & _)]; discriminate]).
    destruct (String.eqb (step_name o d) "") eqn:E.
    + split; [discriminate|]. intros F. inversion F as [|? i ? r (q & X & Hn)]; subst. injection X as <-. apply step_name_iff in Hn. destruct Hn; congruence.
    + rewrite bind_iff. split.
      * intros (r & Hr & [= <-]). constructor; [exists d; split; [reflexivity|apply step_name_iff; auto]|apply IH, Hr].
      * intros F. inversion F as [|? i ? r (q & X & Hn) Hr]; subst. injection X as <-. apply step_name_iff in Hn. destruct Hn as [<- _]. exists r. split; [apply IH, Hr|reflexivity].
Qed.
Lemma step_ids_ok o plan ids : step_ids o plan = Ok ids <-> steps_of o plan ids.
Proof.
  unfold step_ids, steps_of. destruct (get_cases plan "steps" (PList [])) as [(v & E & ->)|[E ->]]; rewrite E.
  - destruct v; try (split; [discriminate|intros [[X _]|(? & X & _)]; discriminate]). rewrite step_names_ok. split; [eauto|]. intros [[X _]|(l' & X & F)]; [discriminate|]. injection X as <-. exact F.
  - cbn. split; [intros [= <-]; auto|]. intros [[_ ->]|(? & X & _)]; [reflexivity|discriminate].
Qed.
Lemma view_steps_ok o l : forall ids, view_steps o l = Ok ids <-> exists parts, Forall2 (steps_of_view o) l parts /\ ids = concat parts.
Proof.
  induction l as [|v l IH]; intros ids; cbn [view_steps].
  - split; [intros [= <-]; exists []; auto|]. intros (p & F & ->). inversion F. reflexivity.
  - assert (V : forall x, match v with PDict d => match get_or d "preprocess" PNone with PDict p => step_ids o p | _ => Ok [] end | _ => Ok [] end = Ok x <-> steps_of_view o v x).
    { intros x. unfold steps_of_view. assert (N : (forall d p, v = PDict d -> lookup d "preprocess" <> Some (PDict p)) -> (Ok [] = Ok x <->
        (exists d p, v = PDict d /\ lookup d "preprocess" = Some (PDict p) /\ steps_of o p x) \/ ((forall d p, v = PDict d -> lookup d "preprocess" <> Some (PDict p)) /\ x = []))).
      { intros N. split; [intros [= <-]; auto|]. intros [(d & p & E & L & _)|[_ ->]]; [exfalso; eapply N; eassumption|reflexivity]. }
      destruct v; try (apply N; discriminate). destruct (get_cases d "preprocess" PNone) as [(w & E & ->)|[E ->]].
      - destruct w; try (apply N; intros q p [= <-]; congruence). rewrite step_ids_ok. split; [eauto 6|]. intros [(q & p & [= <-] & L & S)|[X _]]; [rewrite E in L; injection L as ->; exact S|exfalso; eapply X; [reflexivity|exact E]].
      - apply N. intros q p [= <-]. congruence. }
    rewrite bind_iff. split.
    + intros (a & Ha & H). apply V in Ha. apply bind_iff in H. destruct H as (b & Hb & [= <-]). apply IH in Hb. destruct Hb as (parts & F & ->). exists (a :: parts). split; [constructor; assumption|reflexivity].
    + intros (parts & F & ->). inversion F as [|? a ? r Ha Hr]; subst. exists a. split; [apply V, Ha|]. apply bind_iff. exists (concat r). split; [apply IH; eauto|reflexivity].
Qed.
Lemma views_ok o vs ids : match vs with Some v => views_step_ids o (pl_plan v) | None => Ok [] end = Ok ids <-> steps_of_views o vs ids.
Proof.
  unfold steps_of_views. assert (N : (forall c l, vs = Some c -> lookup (pl_plan c) "views" <> Some (PList l)) -> (Ok [] = Ok ids <->
    (exists c l parts, vs = Some c /\ lookup (pl_plan c) "views" = Some (PList l) /\ Forall2 (steps_of_view o) l parts /\ ids = concat parts) \/
    ((forall c l, vs = Some c -> lookup (pl_plan c) "views" <> Some (PList l)) /\ ids = []))).
  { intros N. split; [intros [= <-]; auto|]. intros [(c & l & parts & E & L & _)|[_ ->]]; [exfalso; eapply N; eassumption|reflexivity]. }
  destruct vs as [c|]; [|apply N; discriminate]. unfold views_step_ids. destruct (get_cases (pl_plan c) "views" (PList [])) as [(v & E & ->)|[E ->]].
  - destruct v; try (apply N; intros q p [= <-]; congruence). rewrite view_steps_ok. split; [intros (parts & F & ->); left; eauto 8|].
    intros [(q & l' & parts & [= <-] & L & F & ->)|[X _]]; [rewrite E in L; injection L as ->; eauto|exfalso; eapply X; [reflexivity|exact E]].
  - cbn. apply N. intros q p [= <-]. congruence.
Qed.
Lemma lower_auto s : lower_text s = "auto" -> auto_text s.
Proof.
  intros H. assert (L : map lower (list_ascii_of_string s) = list_ascii_of_string "auto") by (rewrite <- H; unfold lower_text; rewrite list_ascii_of_string_of_list_ascii; reflexivity).
  exists []. destruct (list_ascii_of_string s) as [|x [|y [|z [|w [|]]]]]; cbn in L; try discriminate. injection L as E1 E2 E3 E4.
  exists x, y, z, w, []. split; [reflexivity|]. split; [constructor|]. split; [constructor|].
  repeat split; [apply (lower_iff "a" "A")|apply (lower_iff "u" "U")|apply (lower_iff "t" "T")|apply (lower_iff "o" "O")]; tauto.
Qed.

Section Start.
Variable o : Oracle.
Variable metrics : list string.
Variable has_backend : string -> string -> result bool.
Variable step_info : string -> result (bool * option string).
Variable extra_ok : string -> result unit.
Variable method_extra : string -> string -> result (option string).

Lemma requires_fit_all ids : (forall i, In i ids -> exists b x, step_info i = Ok (b, x)) ->
  exists f, requires_fit step_info ids = Ok f /\ (f = true <-> exists i x, In i ids /\ step_info i = Ok (true, x)).
Proof.
  induction ids as [|i r IH]; intros H; cbn [requires_fit].
  - exists false. split; [reflexivity|]. split; [discriminate|]. intros (? & ? & [] & _).
  - destruct (H i (or_introl eq_refl)) as (b & x & E). rewrite E. cbn [bind]. destruct b.
    + exists true. split; [reflexivity|]. split; [|reflexivity]. intros _. exists i, x. split; [left; reflexivity|exact E].
    + destruct IH as (f & Ef & Hf); [intros j Hj; apply H; right; exact Hj|]. exists f. split; [exact Ef|]. rewrite Hf. split.
      * intros (j & y & Hj & Ej). exists j, y. split; [right; exact Hj|exact Ej].
      * intros (j & y & [<-|Hj] & Ej); [congruence|eauto].
Qed.
Lemma need_ok x : need extra_ok x = Ok tt <-> forall e, x = Some e -> extra_ok e = Ok tt.
Proof. destruct x; cbn; split; [intros E ? [= <-]; exact E|auto|discriminate|reflexivity]. Qed.
Lemma need_steps_ok ids : need_steps step_info extra_ok ids = Ok tt <-> forall i, In i ids -> exists b x, step_info i = Ok (b, x) /\ forall e, x = Some e -> extra_ok e = Ok tt.
Proof.
  induction ids as [|i r IH]; cbn [need_steps]; [split; [intros _ ? []|reflexivity]|]. rewrite bind_iff. split.
  - intros ([b x] & E & H). apply bind_unit_iff in H. destruct H as (Hx & Hr). pose proof (proj1 (need_ok x) Hx). intros j [<-|Hj]; [eauto|]. apply IH; assumption.
  - intros H. destruct (H i (or_introl eq_refl)) as (b & x & E & Hx). exists (b, x). split; [exact E|]. apply bind_unit_iff. split; [apply need_ok, Hx|]. apply IH. intros j Hj. apply H. right. exact Hj.
Qed.
Lemma fit_check ids (fit_on : option string) : (forall i, In i ids -> exists b x, step_info i = Ok (b, x)) ->
  ((do f <- requires_fit step_info ids; refuse (f && negb (is_some fit_on))) = Ok tt <-> forall i x, In i ids -> step_info i = Ok (true, x) -> fit_on <> None).
Proof.
  intros H. destruct (requires_fit_all ids H) as (f & Ef & Hf). rewrite Ef. cbn [bind]. rewrite refuse_iff. destruct fit_on as [s|]; cbn [is_some negb].
  - rewrite andb_false_r. split; [intros _ ? ? _ _; discriminate|reflexivity].
  - rewrite andb_true_r. split.
    + intros -> i x Hi E. exfalso. assert (X : false = true) by (apply Hf; eauto). discriminate.
    + intros X. destruct f; [|reflexivity]. exfalso. destruct (proj1 Hf eq_refl) as (i & x & Hi & E). apply (X i x Hi E). reflexivity.
Qed.
Lemma all_in ks l : negb (forallb (fun m => memS m ks) l) = false <-> forall m : string, In m l -> In m ks.
Proof. rewrite negb_false_iff, forallb_forall. setoid_rewrite memS_In. reflexivity. Qed.

Lemma preflight_ok c ex ids g :
  preflight metrics step_info extra_ok method_extra c ex ids g = Ok tt <->
  (forall e, ex = Some e -> extra_ok e = Ok tt) /\ (forall i, In i ids -> exists b x, step_info i = Ok (b, x) /\ forall e, x = Some e -> extra_ok e = Ok tt) /\
  (exists x, method_extra (mc_kind (xc_method c)) (mc_id (xc_method c)) = Ok x /\ forall e, x = Some e -> extra_ok e = Ok tt) /\
  (mc_kind (xc_method c) = "inductive" -> mc_id (xc_method c) = "co_training" -> xc_views c <> None) /\
  (mc_kind (xc_method c) = "transductive" -> g = true \/ exists q, xc_graph c = Some q /\ gc_enabled q = true) /\
  (forall a, xc_aug c = Some a -> ac_enabled a = true -> ac_mode a = "fixed" /\ ac_weak a <> [] /\ ac_strong a <> []) /\
  (forall m, In m (ec_metrics (xc_eval c)) -> In m metrics) /\ (forall s, In s (ec_splits (xc_eval c)) -> In s ["train"; "val"; "test"]).
Proof.
  unfold preflight. rewrite bind_unit_iff, need_ok. apply and_iff_compat_l. rewrite bind_unit_iff, need_steps_ok. apply and_iff_compat_l.
  assert (M : forall P : Prop, ((exists x, method_extra (mc_kind (xc_method c)) (mc_id (xc_method c)) = Ok x /\ (forall e, x = Some e -> extra_ok e = Ok tt)) /\ P) <->
    exists x, method_extra (mc_kind (xc_method c)) (mc_id (xc_method c)) = Ok x /\ (forall e, x = Some e -> extra_ok e = Ok tt) /\ P) by (intros P; firstorder).
  rewrite M, bind_iff. clear M. split; intros (x & E & H); exists x; (split; [exact E|]); clear E.
  - rewrite bind_unit_iff, need_ok in H. destruct H as [Hx H]. split; [exact Hx|]. rewrite bind_unit_iff, refuse_iff in H. destruct H as [H1 H]. rewrite bind_unit_iff, refuse_iff in H. destruct H as [H2 H].
    rewrite bind_unit_iff in H. destruct H as [H3 H]. rewrite bind_unit_iff, refuse_iff, refuse_iff, !all_in in H. destruct H as [H4 H5].
    split. { intros E1 E2 E3. rewrite E1, E2, E3 in H1. discriminate H1. }
    split. { intros E1. rewrite E1 in H2. cbn in H2. destruct g; [auto|]. right. destruct (xc_graph c) as [q|]; [|discriminate]. exists q. split; [reflexivity|]. destruct (gc_enabled q); [reflexivity|discriminate]. }
    split. { intros a Ea Hen. rewrite Ea, Hen in H3. rewrite bind_unit_iff, refuse_iff, negb_false_iff, String.eqb_eq in H3. destruct H3 as [A H3]. rewrite bind_unit_iff, !non_empty_ok in H3. tauto. }
    auto.
  - destruct H as (Hx & H1 & H2 & H3 & H4 & H5). rewrite bind_unit_iff, need_ok. split; [exact Hx|]. rewrite bind_unit_iff, refuse_iff. split.
    { destruct (String.eqb_spec (mc_kind (xc_method c)) "inductive") as [E1|]; [|reflexivity]. destruct (String.eqb_spec (mc_id (xc_method c)) "co_training") as [E2|]; [|reflexivity].
      specialize (H1 E1 E2). destruct (xc_views c); [reflexivity|congruence]. }
    rewrite bind_unit_iff, refuse_iff. split.
    { destruct (String.eqb_spec (mc_kind (xc_method c)) "transductive") as [E1|]; [|reflexivity]. destruct (H2 E1) as [->|(q & -> & ->)]; [reflexivity|]. destruct g; reflexivity. }
    rewrite bind_unit_iff. split.
    { destruct (xc_aug c) as [a|]; [|reflexivity]. destruct (ac_enabled a) eqn:Hen; [|reflexivity]. destruct (H3 a eq_refl Hen) as (-> & A & B). rewrite bind_unit_iff, refuse_iff. split; [reflexivity|]. rewrite bind_unit_iff, !non_empty_ok. auto. }
    rewrite bind_unit_iff, !refuse_iff, !all_in. auto.
Qed.

(* the contract, apart from the steps *)
Lemma contract_ok data c steps vsteps : unique_keys (PDict data) -> reads o metrics data c -> rn_bench (xc_run c) = true ->
  (bench_preflight o has_backend step_info c (PDict data) steps vsteps = Ok tt <->
   contract o has_backend c (PDict data) /\
   (do f <- requires_fit step_info steps; refuse (f && negb (is_some (pc_fit_on (xc_preprocess c))))) = Ok tt /\
   (do f <- requires_fit step_info vsteps; refuse (f && negb (is_some (pc_fit_on (xc_preprocess c))))) = Ok tt).
Proof.
  intros U R B. unfold bench_preflight, contract. rewrite B. cbn [negb].
  assert (A : refuse_auto (PDict data) = Ok tt <-> nowhere_auto (PDict data)) by (apply (C75_refused_iff _ U)).
  assert (P1 : nowhere_auto (PDict data) -> match xc_limits c with Some l => match lc_profile l with Some p => String.eqb p "auto" | None => false end | None => false end = false).
  { intros N. destruct (xc_limits c) as [l|] eqn:El; [|reflexivity]. destruct (lc_profile l) as [p|] eqn:Ep; [|reflexivity]. destruct (String.eqb_spec p "auto") as [->|]; [|reflexivity].
    exfalso. destruct R as (_ & _ & Hl & _). rewrite El in Hl. destruct Hl as (d & Hd & _ & Hp & _). rewrite Ep in Hp. destruct Hp as (_ & s & Ls & Hs).
    destruct Hd as [Hd|[_ ->]]; [|discriminate]. apply N. exists [K "limits"], "profile", s. split; [cbn; rewrite Hd, Ls; reflexivity|]. split; [apply lower_auto, Hs|right; right; right; reflexivity]. }
  assert (P2 : nowhere_auto (PDict data) -> match xc_graph c with Some g => gc_enabled g && match lookup (gc_spec g) "backend" with Some (PStr s) => String.eqb (lower_text s) "auto" | _ => false end | None => false end = false).
  { intros N. destruct (xc_graph c) as [g|] eqn:Eg; [|reflexivity]. destruct (lookup (gc_spec g) "backend") as [v|] eqn:Lb; [|apply andb_false_r]. destruct v; try apply andb_false_r.
    destruct (String.eqb_spec (lower_text s) "auto") as [Hs|]; [|apply andb_false_r]. exfalso. destruct R as (_ & _ & _ & _ & _ & _ & _ & Hg & _). rewrite Eg in Hg. destruct Hg as (d & Hd & _ & _ & _ & _ & _ & Hm).
    destruct Hm as [Hm|[_ Hm]]; [|rewrite Hm in Lb; discriminate]. apply N. exists [K "graph"; K "spec"], "backend", s. split; [cbn; rewrite Hd, Hm, Lb; reflexivity|]. split; [apply lower_auto, Hs|right; left; reflexivity]. }
  assert (P3 : nowhere_auto (PDict data) -> match mc_model (xc_method c) with Some (Classifier _ b _ _) => String.eqb b "auto" | _ => false end = false).
  { intros N. destruct (mc_model (xc_method c)) as [[|i b ps em]|] eqn:Em; try reflexivity. destruct (String.eqb_spec b "auto") as [->|]; [|reflexivity].
    exfalso. destruct R as (_ & _ & _ & _ & _ & _ & _ & _ & _ & (d & Hd & _ & _ & _ & _ & _ & Hm) & _). rewrite Em in Hm. destruct Hm as (q & Hq & _ & _ & [[Hb _]|[_ X]] & _); [|discriminate].
    apply N. exists [K "method"; K "model"], "classifier_backend", "auto". split; [cbn; rewrite Hd, Hq, Hb; reflexivity|]. split; [apply lower_auto; reflexivity|right; right; left; reflexivity]. }
  split.
  - intros H. rewrite bind_unit_iff, refuse_iff in H. destruct H as [H1 H]. rewrite bind_unit_iff, refuse_iff in H. destruct H as [H2 H]. rewrite bind_unit_iff, refuse_iff in H. destruct H as [H3 H].
    rewrite bind_unit_iff in H. destruct H as [_ H]. rewrite bind_unit_iff in H. destruct H as [_ H]. rewrite bind_unit_iff in H. destruct H as [_ H]. rewrite bind_unit_iff in H. destruct H as [H4 H].
    rewrite bind_unit_iff, refuse_iff in H. destruct H as [H5 H]. rewrite bind_iff in H. destruct H as (hb & H6 & H). rewrite bind_unit_iff in H. destruct H as [H7 H]. rewrite bind_unit_iff in H. destruct H as [H8 H].
    rewrite bind_iff in H. destruct H as (f1 & F1 & H). rewrite bind_unit_iff in H. destruct H as [R1 H]. rewrite bind_iff in H. destruct H as (f2 & F2 & R2).
    split; [|split; rewrite bind_iff; eauto]. split; [exact H1|]. split; [destruct (dc_cache (xc_dataset c)); [discriminate|discriminate H2]|]. split; [apply A, H8|]. split; [apply String.eqb_neq, H3|]. split.
    + destruct (ec_select (xc_eval c)) as [s|] eqn:Es; [|discriminate]. exists s. split; [reflexivity|]. apply refuse_iff, negb_false_iff, memS_In in H4. split; [exact H4|]. intros q Eq Hen. rewrite Eq, Hen in H5. cbn in H5.
      apply negb_false_iff, String.eqb_eq in H5. exact H5.
    + exists hb. split; [exact H6|]. intros ->. unfold get_or in H7. destruct (lookup (mc_params (xc_method c)) "backend") as [v|]; [|discriminate]. exists v. split; [reflexivity|].
      destruct v; try discriminate H7; (split; [discriminate|]); apply refuse_iff, String.eqb_neq in H7; exact H7.
  - intros ((H1 & H2 & H3 & H4 & (s & Hs & Hin & Hq) & (hb & Hb & Hv)) & F1 & F2). rewrite bind_unit_iff, refuse_iff. split; [exact H1|]. rewrite bind_unit_iff, refuse_iff. split; [destruct (dc_cache (xc_dataset c)); [reflexivity|congruence]|].
    rewrite bind_unit_iff, refuse_iff. split; [apply String.eqb_neq, H4|]. rewrite bind_unit_iff, refuse_iff. split; [apply P1, H3|]. rewrite bind_unit_iff, refuse_iff. split; [apply P2, H3|].
    rewrite bind_unit_iff, refuse_iff. split; [apply P3, H3|]. rewrite Hs. rewrite bind_unit_iff, refuse_iff. split; [apply negb_false_iff, memS_In, Hin|].
    rewrite bind_unit_iff, refuse_iff. split. { destruct (xc_search c) as [q|]; [|reflexivity]. destruct (sc_enabled q) eqn:En; [|reflexivity]. cbn. rewrite (Hq q eq_refl En), String.eqb_refl. reflexivity. }
    rewrite bind_iff. exists hb. split; [exact Hb|]. rewrite bind_unit_iff. split.
    { destruct hb; [|reflexivity]. destruct (Hv eq_refl) as (v & E & Nn & Na). unfold get_or. rewrite E. destruct v; [congruence| | | | | |]; apply refuse_iff, String.eqb_neq, Na. }
    rewrite bind_unit_iff. split; [apply A, H3|]. rewrite bind_iff in F1, F2. destruct F1 as (f1 & F1 & R1), F2 as (f2 & F2 & R2). rewrite bind_iff. exists f1. split; [exact F1|]. rewrite bind_unit_iff. split; [exact R1|]. rewrite bind_iff. eauto.
Qed.

Variable load : DatasetConfig -> result (option string * bool).
Theorem start_iff data c ids : unique_keys (PDict data) -> reads o metrics data c ->
  (start o metrics has_backend step_info extra_ok method_extra load c (PDict data) = Ok ids <->
   exists steps vsteps extra g, steps_of o (pc_plan (xc_preprocess c)) steps /\ steps_of_views o (xc_views c) vsteps /\ ids = steps ++ vsteps /\
     (rn_bench (xc_run c) = true -> contract o has_backend c (PDict data)) /\ load (xc_dataset c) = Ok (extra, g) /\
     ready metrics step_info extra_ok method_extra c ids extra g).
Proof.
  intros U R. unfold start. split.
  - intros H. rewrite bind_iff in H. destruct H as (steps & Hs & H). rewrite bind_iff in H. destruct H as (vsteps & Hv & H). rewrite bind_unit_iff in H. destruct H as [Hb H]. rewrite bind_iff in H. destruct H as ([ex g] & Hl & H).
    cbn beta iota in H. rewrite bind_iff in H. destruct H as (f1 & F1 & H). rewrite bind_unit_iff in H. destruct H as [R1 H]. rewrite bind_iff in H. destruct H as (f2 & F2 & H). rewrite bind_unit_iff in H. destruct H as [R2 H].
    rewrite bind_unit_iff in H. destruct H as [Hp H]. injection H as <-. apply step_ids_ok in Hs. apply views_ok in Hv.
    exists steps, vsteps, ex, g. split; [exact Hs|]. split; [exact Hv|]. split; [reflexivity|]. split; [intros B; apply (contract_ok data c steps vsteps U R B) in Hb; tauto|]. split; [exact Hl|].
    apply preflight_ok in Hp. destruct Hp as (X1 & X2 & X3). unfold ready. cbv zeta. split; [exact X1|]. split; [|exact X3].
    assert (K : forall i, In i (steps ++ vsteps) -> exists b x, step_info i = Ok (b, x)) by (intros i Hi; destruct (X2 i Hi) as (b & x & E & _); eauto).
    assert (G1 : (do f <- requires_fit step_info steps; refuse (f && negb (is_some (pc_fit_on (xc_preprocess c))))) = Ok tt) by (rewrite bind_iff; eauto).
    assert (G2 : (do f <- requires_fit step_info vsteps; refuse (f && negb (is_some (pc_fit_on (xc_preprocess c))))) = Ok tt) by (rewrite bind_iff; eauto).
    rewrite fit_check in G1 by (intros i Hi; apply K, in_app_iff; auto). rewrite fit_check in G2 by (intros i Hi; apply K, in_app_iff; auto).
    intros i Hi. destruct (X2 i Hi) as (b & x & E & Hx). exists b, x. split; [exact E|]. split; [exact Hx|]. intros ->. apply in_app_iff in Hi. destruct Hi; eauto.
  - intros (steps & vsteps & ex & g & Hs & Hv & -> & Hb & Hl & X1 & X2 & X3). apply step_ids_ok in Hs. apply views_ok in Hv.
    assert (K : forall i, In i (steps ++ vsteps) -> exists b x, step_info i = Ok (b, x)) by (intros i Hi; destruct (X2 i Hi) as (b & x & E & _); eauto).
    assert (G1 : (do f <- requires_fit step_info steps; refuse (f && negb (is_some (pc_fit_on (xc_preprocess c))))) = Ok tt).
    { rewrite fit_check by (intros i Hi; apply K, in_app_iff; auto). intros i x Hi E. destruct (X2 i) as (b & y & E' & _ & Hf); [apply in_app_iff; auto|]. rewrite E in E'. injection E' as <- <-. auto. }
    assert (G2 : (do f <- requires_fit step_info vsteps; refuse (f && negb (is_some (pc_fit_on (xc_preprocess c))))) = Ok tt).
    { rewrite fit_check by (intros i Hi; apply K, in_app_iff; auto). intros i x Hi E. destruct (X2 i) as (b & y & E' & _ & Hf); [apply in_app_iff; auto|]. rewrite E in E'. injection E' as <- <-. auto. }
    rewrite bind_iff. exists steps. split; [exact Hs|]. rewrite bind_iff. exists vsteps. split; [exact Hv|]. rewrite bind_unit_iff. split.
    { destruct (rn_bench (xc_run c)) eqn:B; [|unfold bench_preflight; rewrite B; reflexivity]. apply (contract_ok data c steps vsteps U R B). auto. }
    rewrite bind_iff. exists (ex, g). split; [exact Hl|]. cbn beta iota. rewrite bind_iff in G1, G2. destruct G1 as (f1 & F1 & R1), G2 as (f2 & F2 & R2).
    rewrite bind_iff. exists f1. split; [exact F1|]. rewrite bind_unit_iff. split; [exact R1|]. rewrite bind_iff. exists f2. split; [exact F2|]. rewrite bind_unit_iff. split; [exact R2|]. rewrite bind_unit_iff. split; [|reflexivity].
    apply preflight_ok. split; [exact X1|]. split; [|exact X3]. intros i Hi. destruct (X2 i Hi) as (b & x & E & Hx & _). eauto.
Qed.
End Start.

(* a contract that is broken is refused before the dataset is asked for *)
Lemma before_loading o metrics has_backend step_info extra_ok method_extra data c : unique_keys (PDict data) -> reads o metrics data c -> rn_bench (xc_run c) = true ->
  ~ contract o has_backend c (PDict data) -> exists e, forall load, start o metrics has_backend step_info extra_ok method_extra load c (PDict data) = Err e.
Proof.
  intros U R B N. unfold start. destruct (step_ids o (pc_plan (xc_preprocess c))) as [steps|e]; [|exists e; reflexivity]. cbn [bind].
  destruct (match xc_views c with Some v => views_step_ids o (pl_plan v) | None => Ok [] end) as [vsteps|e]; [|exists e; reflexivity]. cbn [bind].
  destruct (bench_preflight o has_backend step_info c (PDict data) steps vsteps) as [[]|e] eqn:E; [|exists e; reflexivity].
  exfalso. apply N. apply (contract_ok o metrics has_backend step_info data c steps vsteps U R B) in E. tauto.
Qed.
