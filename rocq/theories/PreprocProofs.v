(* Proofs about the preprocessing pipeline. *)
From Coq Require Import String ZifyBool.
From Verif Require Import Prelude ListFacts SampleServiceProofs PreprocModel PreprocSpec.
Local Open Scope Z_scope.
Local Open Scope list_scope.

(* ---------------------------------------------------------------- dictionaries *)
Lemma memK_In k l : memK k l = true <-> In k l.
Proof. unfold memK. rewrite existsb_exists. split; [intros (x & Hx & E); apply String.eqb_eq in E; congruence|intros H; exists k; split; [exact H|apply String.eqb_refl]]. Qed.
Lemma memK_not k l : memK k l = false <-> ~ In k l.
Proof. rewrite <- memK_In. destruct (memK k l); split; try congruence; intros H; exfalso; apply H; reflexivity. Qed.
Section DictFacts.
Context {V : Type}.
Implicit Types d : dict V.
Lemma get_set d k v j : get (set d k v) j = if String.eqb k j then Some v else get d j.
Proof.
  induction d as [|[a w] d IH]; cbn [set get]; [reflexivity|]. destruct (String.eqb_spec a k) as [->|Ha]; cbn [get].
  - destruct (String.eqb_spec k j); reflexivity.
  - rewrite IH. destruct (String.eqb_spec a j) as [->|]; [|reflexivity]. destruct (String.eqb_spec k j); [congruence|reflexivity].
Qed.
Lemma get_None d k : get d k = None <-> ~ In k (map fst d).
Proof.
  induction d as [|[a v] d IH]; cbn [get map In fst]; [tauto|]. destruct (String.eqb_spec a k) as [->|Ha]; [split; [discriminate|intros H; exfalso; apply H; left; reflexivity]|].
  rewrite IH. split; [intros H [?|?]; [congruence|tauto]|tauto].
Qed.
Lemma get_Some_In d k v : get d k = Some v -> In k (map fst d).
Proof. intros H. destruct (in_dec string_dec k (map fst d)) as [|N]; [assumption|]. apply get_None in N. congruence. Qed.
Lemma has_In d k : has d k = true <-> In k (map fst d).
Proof.
  unfold has. destruct (get d k) eqn:E.
  - split; [intros _; eapply get_Some_In; eauto|reflexivity].
  - split; [discriminate|]. intros H. apply get_None in E. contradiction.
Qed.
Lemma set_all_get new : NoDup (map fst new) -> forall d k, get (set_all d new) k = match get new k with Some v => Some v | None => get d k end.
Proof.
  induction new as [|[a v] new IH]; intros Hn d k; [reflexivity|]. cbn [map fst] in Hn. inversion Hn as [|? ? Ha Hn']; subst. unfold set_all. cbn [fold_left]. fold (set_all (set d (fst (a, v)) (snd (a, v))) new).
  rewrite IH by exact Hn'. cbn [get fst snd]. rewrite get_set. destruct (String.eqb_spec a k) as [->|]; [|reflexivity].
  assert (E : get new k = None) by (apply get_None, Ha). rewrite E. reflexivity.
Qed.
Lemma purge_get d keep k : get (purge d keep) k = if memK k keep then get d k else None.
Proof.
  induction d as [|[a v] d IH]; cbn [purge filter get fst]; [destruct (memK k keep); reflexivity|].
  destruct (memK a keep) eqn:Ea; cbn [get].
  - destruct (String.eqb_spec a k) as [->|]; [rewrite Ea; reflexivity|exact IH].
  - unfold purge in IH. rewrite IH. destruct (String.eqb_spec a k) as [->|]; [rewrite Ea; reflexivity|reflexivity].
Qed.
End DictFacts.
Lemma record_get {V Pm DFp} (outs : dict V) (f : key Pm DFp) : forall prov k, get (record prov outs f) k = if has outs k then Some f else get prov k.
Proof.
  unfold record. induction outs as [|[a v] outs IH]; intros prov k; [reflexivity|]. cbn [fold_left fst]. rewrite IH, get_set. unfold has. cbn [get].
  destruct (String.eqb_spec a k) as [->|]; destruct (get outs k); reflexivity.
Qed.

Section Pipe.
Context {V Pm R S DFp : Type}.
Variable sem : semantics V Pm R S.
Notation state := (state V Pm DFp).
Notation step := (step Pm).

(* ---------------------------------------------------------------- purging *)
(* the purged store a holds part of the full store b, and all of the needed part *)
Definition part (need : list string) (a b : dict V) : Prop :=
  (forall k v, get a k = Some v -> get b k = Some v) /\ (forall k, In k need -> get a k = get b k).
Definition part_state (need : list string) (a b : state) : Prop :=
  part need (st_train a) (st_train b) /\
  match st_test a, st_test b with Some x, Some y => part need x y | None, None => True | _, _ => False end.
Lemma part_sub n m a b : incl m n -> part n a b -> part m a b.
Proof. intros Hi [H1 H2]. split; [exact H1|]. intros k Hk. apply H2, Hi, Hk. Qed.
Lemma part_step x keep a b : NoDup (map fst x) -> part keep a b -> part keep (purge (set_all a x) keep) (set_all b x).
Proof.
  intros Hn [H1 H2]. split.
  - intros k v. rewrite purge_get, !set_all_get by exact Hn. destruct (memK k keep); [|discriminate]. destruct (get x k); [auto|apply H1].
  - intros k Hk. rewrite purge_get, !set_all_get by exact Hn. apply memK_In in Hk as Hm. rewrite Hm. destruct (get x k); [reflexivity|apply H2, Hk].
Qed.
Lemma step_part dfp seed fi need final rest (s : step) a b : reads_only sem (sp_consumes (r_spec s) ++ implicit_consumes (r_id s)) s -> writes_declared sem s ->
  need = required final (s :: rest) -> part_state need a b ->
  match plain_step sem dfp seed fi a s, plain_step sem dfp seed fi b s with
  | Ok a', Ok b' => part_state (required final rest) (purge_state a' (required final rest)) b' /\
       (exists x, st_train b' = set_all (st_train b) x /\ NoDup (map fst x) /\ (forall k, In k (map fst x) -> In k (sp_produces (r_spec s)))) /\
       match st_test b, st_test b' with
       | Some t, Some t' => exists x, t' = set_all t x /\ NoDup (map fst x) /\ (forall k, In k (map fst x) -> In k (sp_produces (r_spec s)))
       | None, None => True | _, _ => False end
  | Err e, Err e' => e = e'
  | _, _ => False
  end.
Proof.
  intros Hr Hw -> [Ht He]. cbn [required] in *.
  assert (Hag : forall k, In k (sp_consumes (r_spec s) ++ implicit_consumes (r_id s)) -> get (st_train a) k = get (st_train b) k).
  { intros k Hk. apply Ht. apply in_or_app. right. exact Hk. }
  destruct (Hr _ _ Hag) as [Hf Htr]. unfold plain_step, prepare.
  destruct (fresh sem (r_id s) (r_params s)) as [o|e]; cbn [bind]; [|reflexivity].
  assert (Ep : (if sp_fittable (r_spec s) then match fi with Some idx => fit sem (r_id s) (r_params s) o (st_train a) idx (rng_of sem (derive sem seed (r_id s) (r_index s))) | None => Err PreprocessError end else Ok (o, rng_of sem (derive sem seed (r_id s) (r_index s))))
    = (if sp_fittable (r_spec s) then match fi with Some idx => fit sem (r_id s) (r_params s) o (st_train b) idx (rng_of sem (derive sem seed (r_id s) (r_index s))) | None => Err PreprocessError end else Ok (o, rng_of sem (derive sem seed (r_id s) (r_index s))))).
  { destruct (sp_fittable (r_spec s)); [|reflexivity]. destruct fi; [apply Hf|reflexivity]. }
  rewrite Ep. clear Ep. match goal with |- context [bind ?p _] => destruct p as [[o1 r]|e] end; cbn [bind]; [|reflexivity].
  rewrite Htr. destruct (transform sem (r_id s) (r_params s) o1 (st_train b) r) as [[x r1]|e] eqn:Ex; cbn [bind]; [|reflexivity].
  destruct (Hw _ _ _ _ _ Ex) as [Nx Px].
  assert (Hsub : incl (required final rest) (required final rest ++ sp_consumes (r_spec s) ++ implicit_consumes (r_id s))) by (intros k Hk; apply in_or_app; left; exact Hk).
  destruct (st_test a) as [ta|] eqn:Ea, (st_test b) as [tb|] eqn:Eb; try destruct He; cbn [bind].
  - assert (Hag' : forall k, In k (sp_consumes (r_spec s) ++ implicit_consumes (r_id s)) -> get ta k = get tb k) by (intros k Hk; apply H0; apply in_or_app; right; exact Hk).
    destruct (Hr _ _ Hag') as [_ Htr']. rewrite Htr'. destruct (transform sem (r_id s) (r_params s) o1 tb r1) as [[y r2]|e] eqn:Ey; cbn [bind]; [|reflexivity].
    destruct (Hw _ _ _ _ _ Ey) as [Ny Py]. unfold advance. rewrite Ea, Eb. cbn [st_train st_test purge_state option_map]. split; [split|split].
    + apply part_step; [exact Nx|]. eapply part_sub; [exact Hsub|exact Ht].
    + apply part_step; [exact Ny|]. eapply part_sub; [exact Hsub|split; assumption].
    + exists x. auto.
    + exists y. auto.
  - unfold advance. rewrite Ea, Eb. cbn [st_train st_test purge_state option_map]. split; [split; [|exact I]|split; [exists x; auto|exact I]].
    apply part_step; [exact Nx|]. eapply part_sub; [exact Hsub|exact Ht].
Qed.

Definition drops (final : list string) (a : state) : Prop :=
  (forall k, ~ In k final -> get (st_train a) k = None) /\ match st_test a with Some t => forall k, ~ In k final -> get t k = None | None => True end.
Definition keeps_others (l : list string) (b b' : state) : Prop :=
  (forall k, ~ In k l -> get (st_train b') k = get (st_train b) k) /\
  match st_test b, st_test b' with Some t, Some t' => forall k, ~ In k l -> get t' k = get t k | None, None => True | _, _ => False end.
Lemma run_part dfp seed fi final : forall (l : list step) a b,
  (forall s, In s l -> reads_only sem (sp_consumes (r_spec s) ++ implicit_consumes (r_id s)) s /\ writes_declared sem s) ->
  part_state (required final l) a b ->
  match run sem dfp seed fi (Some (keep_sets final l)) a l, run sem dfp seed fi None b l with
  | Ok a', Ok b' => part_state final a' b' /\ (l <> [] -> drops final a') /\ keeps_others (produced l) b b'
  | Err e, Err e' => e = e'
  | _, _ => False
  end.
Proof.
  induction l as [|s l IH]; intros a b Hc Hp; cbn [run keep_sets required] in *.
  - split; [exact Hp|]. split; [congruence|]. split; [reflexivity|]. destruct (st_test b); [reflexivity|exact I].
  - assert (Hs := Hc s (or_introl eq_refl)). destruct Hs as [Hr Hw]. assert (Hst := step_part dfp seed fi _ final l s a b Hr Hw eq_refl Hp).
    destruct (plain_step sem dfp seed fi a s) as [a'|e], (plain_step sem dfp seed fi b s) as [b'|e']; cbn [bind]; try exact Hst; try contradiction.
    destruct Hst as (Hp' & (x & Ex & Nx & Px) & Hte). cbn [hd tl]. assert (Hl := IH _ _ (fun t Ht => Hc t (or_intror Ht)) Hp').
    destruct (run sem dfp seed fi (Some (keep_sets final l)) (purge_state a' (required final l)) l) as [a2|e2] eqn:Ea, (run sem dfp seed fi None b' l) as [b2|e2'] eqn:Eb; try exact Hl; try contradiction.
    destruct Hl as (Q1 & Q2 & Q3). split; [exact Q1|]. split.
    + intros _. destruct l as [|s' l']; [|apply Q2; discriminate]. cbn [run keep_sets required] in Ea. injection Ea as <-. split.
      * intros k Hk. cbn [purge_state st_train]. rewrite purge_get. apply memK_not in Hk. cbn [required]. rewrite Hk. reflexivity.
      * cbn [purge_state st_test]. destruct (st_test a'); cbn [option_map]; [|exact I]. intros k Hk. rewrite purge_get. apply memK_not in Hk. cbn [required]. rewrite Hk. reflexivity.
    + destruct Q3 as [R1 R2]. assert (Hg : forall x k, NoDup (map fst x) -> (forall k, In k (map fst x) -> In k (sp_produces (r_spec s))) -> ~ In k (produced (s :: l)) -> forall d : dict V, get (set_all d x) k = get d k).
      { intros x0 k N P Hk d. rewrite set_all_get by exact N. assert (E : get x0 k = None); [|rewrite E; reflexivity]. apply get_None. intros Hi. apply Hk. cbn [produced flat_map]. apply in_or_app. left. apply P, Hi. }
      assert (Hk2 : forall k, ~ In k (produced (s :: l)) -> ~ In k (produced l)) by (intros k Hk Hi; apply Hk; cbn [produced flat_map]; apply in_or_app; right; exact Hi).
      split.
      * intros k Hk. rewrite R1 by (apply Hk2, Hk). rewrite Ex. apply Hg; assumption.
      * destruct (st_test b) as [tb|], (st_test b') as [tb'|]; try contradiction; [|destruct (st_test b2); [contradiction|exact I]].
        destruct (st_test b2) as [t2|]; [|contradiction]. intros k Hk. rewrite R2 by (apply Hk2, Hk). destruct Hte as (y & Ey & Ny & Py). rewrite Ey. apply Hg; assumption.
Qed.

(* ---------------------------------------------------------------- the initial store *)
Lemma masks_get (m : list (string * V)) : forall (d : dict V) k, (forall s, k <> String.append "graph.mask." s) ->
  get (fold_left (fun d e => set d (String.append "graph.mask." (fst e)) (snd e)) m d) k = get d k.
Proof.
  induction m as [|e m IH]; intros d k Hk; cbn [fold_left]; [reflexivity|]. rewrite IH by exact Hk. rewrite get_set.
  destruct (String.eqb_spec (String.append "graph.mask." (fst e)) k) as [E|]; [exfalso; apply (Hk (fst e)); congruence|reflexivity].
Qed.
Lemma initial_get s k : (forall m, k <> String.append "graph.mask." m) ->
  get (initial s) k = if String.eqb "graph.edge_index" k then (match s_edges s with Some e => Some e | None => None end)
                      else if String.eqb "raw.X" k then Some (s_X s : V) else if String.eqb "raw.y" k then Some (s_y s) else None.
Proof.
  intros Hk. unfold initial. rewrite masks_get by exact Hk. destruct (s_edges s); [rewrite get_set|]; cbn [get]; [reflexivity|].
  destruct (String.eqb_spec "graph.edge_index" k) as [<-|]; reflexivity.
Qed.
Ltac notmask := let m := fresh in let E := fresh in intros m E; discriminate E.
Lemma initial_X s : get (initial s) "raw.X" = Some (s_X s : V). Proof. rewrite initial_get by notmask. reflexivity. Qed.
Lemma initial_y s : get (initial s) "raw.y" = Some (s_y s : V). Proof. rewrite initial_get by notmask. reflexivity. Qed.
Lemma initial_labels s : get (initial s) "labels.y" = (None : option V). Proof. rewrite initial_get by notmask. reflexivity. Qed.
Lemma initial_weight s : get (initial s) "graph.edge_weight" = (None : option V). Proof. rewrite initial_get by notmask. reflexivity. Qed.
Lemma initial_edges s : get (initial s) "graph.edge_index" = (s_edges s : option V). Proof. rewrite initial_get by notmask. cbn [String.eqb Ascii.eqb Bool.eqb]. destruct (s_edges s); reflexivity. Qed.

(* ---------------------------------------------------------------- what is kept *)
Lemma final_output (steps : list step) out ik : In out (final_keep steps out ik).
Proof. left. reflexivity. Qed.
Lemma final_labels (steps : list step) out ik : In "labels.y"%string (produced steps) -> In "labels.y"%string (final_keep steps out ik).
Proof. intros H. apply memK_In in H. unfold final_keep. rewrite H. right. apply in_or_app. right. left. reflexivity. Qed.
Lemma final_weight (steps : list step) out ik : In "graph.edge_weight"%string (produced steps) -> In "graph.edge_weight"%string (final_keep steps out ik) /\ In "graph.edge_index"%string (final_keep steps out ik).
Proof. intros H. apply memK_In in H. unfold final_keep. rewrite H. split; right; apply in_or_app; right; apply in_or_app; right; cbn; auto. Qed.
Lemma final_edges (steps : list step) out ik : In "graph.edge_index"%string (produced steps) -> In "graph.edge_index"%string (final_keep steps out ik).
Proof.
  intros H. apply memK_In in H. unfold final_keep. rewrite H. right. apply in_or_app. right. apply in_or_app. right.
  destruct (memK "graph.edge_weight" (produced steps)); cbn; auto.
Qed.
Lemma final_raw_X (steps : list step) out ik : In "raw.X"%string (final_keep steps out ik) <-> (out = "raw.X"%string \/ (~ In out ik /\ ~ In out (produced steps))).
Proof.
  unfold final_keep. cbn [In]. rewrite !in_app_iff. destruct (String.eqb_spec out "raw.X") as [->|Ho]; cbn [orb].
  - split; [auto|]. intros _. left. reflexivity.
  - assert (H1 : ~ In "raw.X"%string (if memK "labels.y" (produced steps) then ["labels.y"%string] else ["raw.y"%string])) by (destruct (memK "labels.y" (produced steps)); cbn; intuition discriminate).
    assert (H2 : ~ In "raw.X"%string (if memK "graph.edge_weight" (produced steps) then ["graph.edge_weight"%string; "graph.edge_index"%string] else if memK "graph.edge_index" (produced steps) then ["graph.edge_index"%string] else []))
      by (destruct (memK "graph.edge_weight" (produced steps)); [|destruct (memK "graph.edge_index" (produced steps))]; cbn; intuition discriminate).
    destruct (memK out ik) eqn:E1; [apply memK_In in E1|apply memK_not in E1]; (destruct (memK out (produced steps)) eqn:E2; [apply memK_In in E2|apply memK_not in E2]); cbn [negb andb In]; tauto.
Qed.
Lemma final_raw_y (steps : list step) out ik : In "raw.y"%string (final_keep steps out ik) <-> (out = "raw.y"%string \/ ~ In "labels.y"%string (produced steps)).
Proof.
  unfold final_keep. cbn [In]. rewrite !in_app_iff.
  assert (H1 : ~ In "raw.y"%string (if String.eqb out "raw.X" || negb (memK out ik) && negb (memK out (produced steps)) then ["raw.X"%string] else [])) by (destruct (String.eqb out "raw.X" || negb (memK out ik) && negb (memK out (produced steps))); cbn; intuition discriminate).
  assert (H2 : ~ In "raw.y"%string (if memK "graph.edge_weight" (produced steps) then ["graph.edge_weight"%string; "graph.edge_index"%string] else if memK "graph.edge_index" (produced steps) then ["graph.edge_index"%string] else []))
      by (destruct (memK "graph.edge_weight" (produced steps)); [|destruct (memK "graph.edge_index" (produced steps))]; cbn; intuition discriminate).
  destruct (memK "labels.y" (produced steps)) eqn:E; [apply memK_In in E|apply memK_not in E]; cbn [In]; intuition discriminate.
Qed.

(* ---------------------------------------------------------------- the returned dataset *)
Lemma finish_split_part (steps : list step) out ik s a b :
  part (final_keep steps out ik) a b -> (forall k, ~ In k (produced steps) -> get b k = get (initial s) k) ->
  forall o, finish_split out s a = Ok o -> finish_split out s b = Ok (o : out_split V).
Proof.
  intros [H1 H2] Hb o. unfold finish_split, require. destruct (get a "raw.X") as [x|] eqn:Ex; cbn [bind]; [|discriminate]. destruct (get a "raw.y") as [y|] eqn:Ey; cbn [bind]; [|discriminate].
  rewrite (H1 _ _ Ex), (H1 _ _ Ey). cbn [bind]. intros [= <-]. f_equal. unfold get_or. rewrite (H2 out (final_output steps out ik)).
  assert (El : get a "labels.y" = get b "labels.y").
  { destruct (in_dec string_dec "labels.y"%string (produced steps)) as [Hi|Hi]; [apply H2, final_labels, Hi|].
    assert (E := Hb _ Hi). rewrite initial_labels in E. rewrite E. destruct (get a "labels.y") eqn:Ea; [|reflexivity]. apply H1 in Ea. congruence. }
  rewrite El. destruct (in_dec string_dec "graph.edge_weight"%string (produced steps)) as [Hw|Hw].
  { destruct (final_weight steps out ik Hw) as [F1 F2]. rewrite (H2 _ F1), (H2 _ F2). reflexivity. }
  assert (Ew : get b "graph.edge_weight" = None) by (rewrite (Hb _ Hw); apply initial_weight).
  assert (Ewa : get a "graph.edge_weight" = None) by (destruct (get a "graph.edge_weight") eqn:Ea; [apply H1 in Ea; congruence|reflexivity]).
  rewrite Ew, Ewa. f_equal. f_equal. destruct (in_dec string_dec "graph.edge_index"%string (produced steps)) as [He|He]; [rewrite (H2 _ (final_edges steps out ik He)); reflexivity|].
  assert (Ee := Hb _ He). rewrite initial_edges in Ee. destruct (get a "graph.edge_index") as [e|] eqn:Ea; [apply H1 in Ea; rewrite Ea; reflexivity|]. rewrite Ee. destruct (s_edges s); reflexivity.
Qed.
Lemma finish_split_ok out s (d : dict V) : (exists o, finish_split out s d = Ok o) <-> (get d "raw.X" <> None /\ get d "raw.y" <> None).
Proof.
  unfold finish_split, require. destruct (get d "raw.X"); cbn [bind]; [|split; [intros (o & H); discriminate|intros [H _]; congruence]].
  destruct (get d "raw.y"); cbn [bind]; [|split; [intros (o & H); discriminate|intros [_ H]; congruence]].
  split; [intros _; split; congruence|]. intros _. eexists. reflexivity.
Qed.
Lemma finish_split_err out s (d : dict V) e : finish_split out s d = Err e -> e = KeyError.
Proof. unfold finish_split, require. destruct (get d "raw.X"); cbn [bind]; [|congruence]. destruct (get d "raw.y"); cbn [bind]; congruence. Qed.
End Pipe.

Section PurgeTheorems.
Context {V Pm R S DFp : Type}.
Variable sem : semantics V Pm R S.
Notation dataset := (dataset V).
Lemma start_part (dfp : DFp) (ds : dataset) need : part_state (V := V) (Pm := Pm) need (start dfp ds) (start dfp ds).
Proof. split; [split; auto|]. cbn [start st_test]. destruct (d_test ds); cbn [option_map]; [split; auto|exact I]. Qed.

Theorem purge_same (dfp : DFp) (ds : dataset) steps out seed fi r : good_steps sem steps ->
  preprocess sem dfp ds steps out seed fi true = Ok r -> preprocess sem dfp ds steps out seed fi false = Ok r.
Proof.
  intros Hg. unfold preprocess. set (fk := final_keep steps out (map fst (initial (d_train ds)))).
  assert (H := run_part sem dfp seed fi fk steps (start dfp ds) (start dfp ds) Hg (start_part dfp ds _)).
  destruct (run sem dfp seed fi (Some (keep_sets fk steps)) (start dfp ds) steps) as [a|e], (run sem dfp seed fi None (start dfp ds) steps) as [b|e']; cbn [bind]; try discriminate; try contradiction.
  destruct H as (Hp & _ & K1 & K2). destruct Hp as [P1 P2]. unfold finish. intros Hf. inv_bind Hf.
  rewrite (finish_split_part steps out _ (d_train ds) _ _ P1 K1 _ E). cbn [bind]. cbn [start st_test] in K2. destruct (d_test ds) as [s|]; cbn [option_map] in K2.
  - destruct (st_test b) as [tb|]; [|contradiction]. destruct (st_test a) as [ta|]; [|contradiction]. inv_bind Hf. inv_bind E0. rewrite (finish_split_part steps out _ s _ _ P2 K2 _ E1). cbn [bind]. congruence.
  - destruct (st_test b); [contradiction|]. destruct (st_test a); [contradiction|]. exact Hf.
Qed.

Theorem purge_ok_iff (dfp : DFp) (ds : dataset) steps out seed fi r : good_steps sem steps ->
  preprocess sem dfp ds steps out seed fi false = Ok r -> 
  if match steps with [] => true | _ => false end then preprocess sem dfp ds steps out seed fi true = Ok r
  else (preprocess sem dfp ds steps out seed fi true = Ok r /\
          (out = "raw.X"%string \/ (~ In out (map fst (initial (d_train ds))) /\ ~ In out (produced steps))) /\ (out = "raw.y"%string \/ ~ In "labels.y"%string (produced steps)))
    \/ (preprocess sem dfp ds steps out seed fi true = Err KeyError /\
          ~ ((out = "raw.X"%string \/ (~ In out (map fst (initial (d_train ds))) /\ ~ In out (produced steps))) /\ (out = "raw.y"%string \/ ~ In "labels.y"%string (produced steps)))).
Proof.
  intros Hg Hr. destruct steps as [|s0 steps]; [exact Hr|]. set (steps' := s0 :: steps) in *. assert (Hne : steps' <> []) by discriminate. clearbody steps'. clear s0 steps. rename steps' into steps.
  assert (Hall : forall r', preprocess sem dfp ds steps out seed fi true = Ok r' -> r' = r) by (intros r' Hr'; apply purge_same in Hr'; [congruence|exact Hg]).
  unfold preprocess in *. set (fk := final_keep steps out (map fst (initial (d_train ds)))) in *.
  rewrite <- (final_raw_X steps out (map fst (initial (d_train ds)))), <- (final_raw_y steps out (map fst (initial (d_train ds)))). fold fk.
  assert (H := run_part sem dfp seed fi fk steps (start dfp ds) (start dfp ds) Hg (start_part dfp ds _)).
  destruct (run sem dfp seed fi (Some (keep_sets fk steps)) (start dfp ds) steps) as [a|e], (run sem dfp seed fi None (start dfp ds) steps) as [b|e']; cbn [bind] in *; try discriminate; try contradiction.
  destruct H as ([P1 P2] & D & K1 & K2). specialize (D Hne). destruct D as [D1 D2].
  assert (Hsp : forall s (x y : dict V), part fk x y -> (forall k, ~ In k fk -> get x k = None) -> (exists o, finish_split out s y = Ok o) ->
     ((exists o, finish_split out s x = Ok o) /\ In "raw.X"%string fk /\ In "raw.y"%string fk) \/ (finish_split out s x = Err KeyError /\ ~ (In "raw.X"%string fk /\ In "raw.y"%string fk))).
  { intros s x y [Q1 Q2] Dx Hy. apply finish_split_ok in Hy as [Y1 Y2].
    destruct (in_dec string_dec "raw.X"%string fk) as [Hx|Hx], (in_dec string_dec "raw.y"%string fk) as [Hx2|Hx2].
    - left. split; [|auto]. apply finish_split_ok. rewrite (Q2 _ Hx), (Q2 _ Hx2). auto.
    - right. split; [|tauto]. destruct (finish_split out s x) eqn:Ef; [|f_equal; eapply finish_split_err; eauto]. exfalso. assert (Hex : exists o, finish_split out s x = Ok o) by eauto. apply finish_split_ok in Hex as [_ Hz]. apply Hz, Dx, Hx2.
    - right. split; [|tauto]. destruct (finish_split out s x) eqn:Ef; [|f_equal; eapply finish_split_err; eauto]. exfalso. assert (Hex : exists o, finish_split out s x = Ok o) by eauto. apply finish_split_ok in Hex as [Hz _]. apply Hz, Dx, Hx.
    - right. split; [|tauto]. destruct (finish_split out s x) eqn:Ef; [|f_equal; eapply finish_split_err; eauto]. exfalso. assert (Hex : exists o, finish_split out s x = Ok o) by eauto. apply finish_split_ok in Hex as [Hz _]. apply Hz, Dx, Hx. }
  unfold finish in *. inv_bind Hr. destruct (Hsp (d_train ds) _ _ P1 D1 (ex_intro _ _ E)) as [((o & Eo) & F)|(Eo & F)].
  - left. split; [|exact F]. rewrite Eo in *. cbn [bind] in *.
    cbn [start st_test] in K2. destruct (d_test ds) as [s|] eqn:Ed; cbn [option_map] in K2.
    + destruct (st_test b) as [tb|]; [|contradiction]. destruct (st_test a) as [ta|]; [|contradiction]. inv_bind Hr. inv_bind E0.
      destruct (Hsp s _ _ P2 D2 (ex_intro _ _ E1)) as [((o' & Eo') & _)|(_ & F')]; [|contradiction]. rewrite Eo' in *. cbn [bind] in *. f_equal. apply Hall. reflexivity.
    + destruct (st_test a); cbn [bind] in *; f_equal; apply Hall; reflexivity.
  - right. rewrite Eo. split; [reflexivity|exact F].
Qed.
End PurgeTheorems.

(* ---------------------------------------------------------------- resolving a plan *)
Section ResolveFacts.
Context {Pm : Type}.
Variable registry : string -> option spec.
Variable modality : string.
Notation config := (config Pm).
Notation step := (step Pm).
Lemma resolve_index : forall (l : list config) i fields steps, resolve registry modality i fields l = Ok steps -> forall s, In s steps -> i <= r_index s < i + lenZ l.
Proof.
  induction l as [|c l IH]; intros i fields steps H s Hs; cbn [resolve] in H; [injection H as <-; destruct Hs|].
  assert (Hl : lenZ (c :: l) = lenZ l + 1) by (unfold lenZ; cbn [List.length]; lia). assert (H0 : 0 <= lenZ l) by (unfold lenZ; lia).
  assert (Hsk : forall fields', resolve registry modality (i + 1) fields' l = Ok steps -> i <= r_index s < i + lenZ (c :: l)) by (intros f' H'; specialize (IH _ _ _ H' s Hs); lia).
  destruct (negb (c_enabled c)); [eapply Hsk; eauto|]. destruct (registry (c_id c)) as [sp|]; [|discriminate].
  destruct (negb _ && _ && _); [eapply Hsk; eauto|]. destruct (existsb _ _); [eapply Hsk; eauto|]. inv_bind H. injection H as <-. destruct Hs as [<-|Hs]; [cbn [r_index]; lia|]. specialize (IH _ _ _ E s Hs). lia.
Qed.
Lemma resolve_sorted : forall (l : list config) i fields steps, resolve registry modality i fields l = Ok steps -> StronglySorted Z.lt (map r_index steps).
Proof.
  induction l as [|c l IH]; intros i fields steps H; cbn [resolve] in H; [injection H as <-; constructor|].
  destruct (negb (c_enabled c)); [eapply IH; eauto|]. destruct (registry (c_id c)) as [sp|]; [|discriminate].
  destruct (negb _ && _ && _); [eapply IH; eauto|]. destruct (existsb _ _); [eapply IH; eauto|]. inv_bind H. injection H as <-. cbn [map r_index]. constructor; [eapply IH; eauto|].
  apply Forall_forall. intros x Hx. apply in_map_iff in Hx as (s & <- & Hs). assert (Hi := resolve_index _ _ _ _ E s Hs). lia.
Qed.
Notation fits := (modality_ok (Pm := Pm) modality).
Lemma fits_spec (c : config) sp : (negb (Nat.eqb (List.length (match c_modalities c with [] => sp_modalities sp | m => m end)) 0) && negb (String.eqb modality "") && negb (memK modality (match c_modalities c with [] => sp_modalities sp | m => m end))) = false <-> fits c sp.
Proof.
  unfold modality_ok. set (al := match c_modalities c with [] => sp_modalities sp | m => m end). rewrite !andb_false_iff, !negb_false_iff, Nat.eqb_eq, String.eqb_eq, memK_In, length_zero_iff_nil. tauto.
Qed.
Lemma resolve_kept : forall (l : list config) i fields steps, resolve registry modality i fields l = Ok steps ->
  (forall n c, nth_error l n = Some c ->
     ((exists s, In s steps /\ r_index s = i + Z.of_nat n) <->
      (c_enabled c = true /\ exists sp, registry (c_id c) = Some sp /\ fits c sp /\
         forall k, In k (c_requires c) -> In k fields \/ exists s, In s steps /\ r_index s < i + Z.of_nat n /\ In k (sp_produces (r_spec s))))) /\
  (forall s, In s steps -> exists n c, nth_error l n = Some c /\ r_index s = i + Z.of_nat n /\ r_id s = c_id c /\ r_params s = c_params c /\ registry (c_id c) = Some (r_spec s)).
Proof.
  induction l as [|c l IH]; intros i fields steps H; cbn [resolve] in H.
  { injection H as <-. split; [intros [|n] c Hc; discriminate|intros s []]. }
  (* the head is skipped *)
  assert (Hsk : resolve registry modality (i + 1) fields l = Ok steps ->
     ~ (c_enabled c = true /\ exists sp, registry (c_id c) = Some sp /\ fits c sp /\ forall k, In k (c_requires c) -> In k fields) ->
     (forall n c0, nth_error (c :: l) n = Some c0 ->
     ((exists s, In s steps /\ r_index s = i + Z.of_nat n) <->
      (c_enabled c0 = true /\ exists sp, registry (c_id c0) = Some sp /\ fits c0 sp /\
         forall k, In k (c_requires c0) -> In k fields \/ exists s, In s steps /\ r_index s < i + Z.of_nat n /\ In k (sp_produces (r_spec s))))) /\
     (forall s, In s steps -> exists n c0, nth_error (c :: l) n = Some c0 /\ r_index s = i + Z.of_nat n /\ r_id s = c_id c0 /\ r_params s = c_params c0 /\ registry (c_id c0) = Some (r_spec s))).
  { intros H' Hno. destruct (IH _ _ _ H') as [I1 I2]. split.
    - intros [|n] c0 Hn.
      + cbn in Hn. injection Hn as <-. split; [intros (s & Hs & Es); assert (Hi := resolve_index _ _ _ _ H' s Hs); lia|].
        intros (He & sp & Er & Hf & Hk). exfalso. apply Hno. split; [exact He|]. exists sp. split; [exact Er|]. split; [exact Hf|]. intros k Hin. destruct (Hk k Hin) as [?|(s & Hs & Hlt & _)]; [assumption|].
        assert (Hi := resolve_index _ _ _ _ H' s Hs). lia.
      + cbn [nth_error] in Hn. replace (i + Z.of_nat (Datatypes.S n)) with (i + 1 + Z.of_nat n) by lia. apply I1, Hn.
    - intros s Hs. destruct (I2 s Hs) as (n & c0 & Hn & E1 & E2 & E3 & E4). exists (Datatypes.S n), c0. split; [exact Hn|]. split; [lia|]. auto. }
  destruct (c_enabled c) eqn:Een; cbn [negb] in H; [|apply Hsk; [exact H|intros [? _]; discriminate]].
  destruct (registry (c_id c)) as [sp|] eqn:Er; [|discriminate].
  destruct (negb _ && _ && _) eqn:Ef.
  { apply Hsk; [exact H|]. intros (_ & sp' & [= <-] & Hf & _). apply fits_spec in Hf. congruence. }
  destruct (existsb (fun k => negb (memK k fields)) (c_requires c)) eqn:Eq.
  { apply Hsk; [exact H|]. intros (_ & sp' & _ & _ & Hk). apply existsb_exists in Eq as (k & Hk1 & Hk2). apply Hk in Hk1. apply memK_In in Hk1. rewrite Hk1 in Hk2. discriminate. }
  clear Hsk. inv_bind H. injection H as <-. destruct (IH _ _ _ E) as [I1 I2]. split.
  - intros [|n] c0 Hn.
    + cbn in Hn. injection Hn as <-. split; [intros _|intros _; eexists; split; [left; reflexivity|cbn [r_index]; lia]].
      split; [exact Een|]. exists sp. split; [exact Er|]. split; [apply fits_spec, Ef|]. intros k Hk. left. apply memK_In. destruct (memK k fields) eqn:Ek; [reflexivity|].
      exfalso. assert (Hx : existsb (fun k => negb (memK k fields)) (c_requires c) = true) by (apply existsb_exists; exists k; split; [exact Hk|rewrite Ek; reflexivity]). congruence.
    + cbn [nth_error] in Hn. specialize (I1 n c0 Hn). replace (i + Z.of_nat (Datatypes.S n)) with (i + 1 + Z.of_nat n) by lia. split.
      * intros (s & [<-|Hs] & Es); [cbn [r_index] in Es; lia|]. destruct (proj1 I1 (ex_intro _ s (conj Hs Es))) as (He & sp0 & Er0 & Hf0 & Hk0). split; [exact He|]. exists sp0. split; [exact Er0|]. split; [exact Hf0|].
        intros k Hk. destruct (Hk0 k Hk) as [Hin|(s' & Hs' & Hlt & Hin)].
        -- apply in_app_or in Hin as [Hin|Hin]; [left; exact Hin|]. right. eexists. split; [left; reflexivity|]. cbn [r_index r_spec]. split; [lia|exact Hin].
        -- right. exists s'. split; [right; exact Hs'|]. split; [exact Hlt|exact Hin].
      * intros (He & sp0 & Er0 & Hf0 & Hk0). destruct (proj2 I1) as (s & Hs & Es).
        { split; [exact He|]. exists sp0. split; [exact Er0|]. split; [exact Hf0|]. intros k Hk. destruct (Hk0 k Hk) as [Hin|(s' & [<-|Hs'] & Hlt & Hin)]; [left; apply in_or_app; left; exact Hin|left; apply in_or_app; right; exact Hin|right; exists s'; auto]. }
        exists s. split; [right; exact Hs|exact Es].
  - intros s [<-|Hs].
    + exists O, c. cbn [nth_error r_index r_id r_params r_spec]. split; [reflexivity|]. split; [lia|]. auto.
    + destruct (I2 s Hs) as (n & c0 & Hn & E1 & E2 & E3 & E4). exists (Datatypes.S n), c0. split; [exact Hn|]. split; [lia|]. auto.
Qed.
Lemma resolve_err : forall (l : list config) i fields e, resolve registry modality i fields l = Err e ->
  e = PreprocessError /\ exists c, In c l /\ c_enabled c = true /\ registry (c_id c) = None.
Proof.
  induction l as [|c l IH]; intros i fields e H; cbn [resolve] in H; [discriminate|].
  assert (Hsk : forall f', resolve registry modality (i + 1) f' l = Err e -> e = PreprocessError /\ exists c0, In c0 (c :: l) /\ c_enabled c0 = true /\ registry (c_id c0) = None).
  { intros f' H'. destruct (IH _ _ _ H') as (He & c0 & H1 & H2). split; [exact He|]. exists c0. split; [right; exact H1|exact H2]. }
  destruct (c_enabled c) eqn:Een; cbn [negb] in H; [|eapply Hsk; eauto]. destruct (registry (c_id c)) as [sp|] eqn:Er.
  2:{ injection H as <-. split; [reflexivity|]. exists c. split; [left; reflexivity|auto]. }
  destruct (negb _ && _ && _); [eapply Hsk; eauto|]. destruct (existsb _ _); [eapply Hsk; eauto|].
  destruct (resolve registry modality (i + 1) (fields ++ sp_produces sp) l) eqn:E; cbn [bind] in H; [discriminate|]. injection H as <-. eapply Hsk; eauto.
Qed.
Lemma resolve_unknown : forall (l : list config) i fields c, In c l -> c_enabled c = true -> registry (c_id c) = None -> resolve registry modality i fields l = Err PreprocessError.
Proof.
  induction l as [|a l IH]; intros i fields c Hin He Hr; [destruct Hin|]. cbn [resolve]. destruct Hin as [->|Hin].
  - rewrite He, Hr. reflexivity.
  - assert (IH' := fun i f => IH i f c Hin He Hr). destruct (negb (c_enabled a)); [apply IH'|]. destruct (registry (c_id a)); [|reflexivity].
    destruct (negb _ && _ && _); [apply IH'|]. destruct (existsb _ _); [apply IH'|]. rewrite IH'. reflexivity.
Qed.
End ResolveFacts.
