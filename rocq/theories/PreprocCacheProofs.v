(* A step's cache key determines its outputs, and calls that share a cache return what they would without it. *)
From Coq Require Import String ZifyBool.
From Verif Require Import Prelude ListFacts SampleServiceProofs PreprocModel PreprocSpec PreprocProofs.
Local Open Scope Z_scope.
Local Open Scope list_scope.

Section CacheProofs.
Context {V Pm R S DFp : Type}.
Variable sem : semantics V Pm R S.
Variable data_of : DFp -> dataset V.
Notation state := (state V Pm DFp).
Notation step := (step Pm).
Notation key := (key Pm DFp).

(* the outputs a key stands for, on train and on test *)
Fixpoint outs (f : key) : option (dict V) * option (dict V) :=
  match f with
  | Raw d _ => (Some (initial (d_train (data_of d))), option_map initial (d_test (data_of d)))
  | Step _ id _ pm fittable seed fi itr ite =>
      let tr := flat_map (fun e => match fst (outs (snd e)) with
                                   | Some o => match get o (fst e) with Some v => [(fst e, v)] | None => [] end
                                   | None => [] end) itr in
      let te := flat_map (fun e => match snd (outs (snd e)) with
                                   | Some o => match get o (fst e) with Some v => [(fst e, v)] | None => [] end
                                   | None => [] end) ite in
      match (do o <- fresh sem id pm;
             if fittable then match fi with None => Err PreprocessError | Some idx => fit sem id pm o tr idx (rng_of sem seed) end else Ok (o, rng_of sem seed)) with
      | Err _ => (None, None)
      | Ok (o, r) => match transform sem id pm o tr r with
                     | Err _ => (None, None)
                     | Ok (x, r1) => (Some x, match transform sem id pm o te r1 with Ok (y, _) => Some y | Err _ => None end)
                     end
      end
  end.
Definition denotes (side : option (dict V) * option (dict V) -> option (dict V)) (d : dict V) (p : list (string * key)) : Prop :=
  forall k, get d k = match get p k with Some f => match side (outs f) with Some o => get o k | None => None end | None => None end.
Definition sound (st : state) : Prop :=
  denotes fst (st_train st) (p_train st) /\
  match st_test st with Some t => denotes snd t (p_test st) /\ t <> [] | None => True end.

Lemma rebuild_get side d p (names : list string) : denotes side d p -> forall k, In k names ->
  get (flat_map (fun e : string * key => match side (outs (snd e)) with
                           | Some o => match get o (fst e) with Some v => [(fst e, v)] | None => [] end
                           | None => [] end) (inputs names p)) k = get d k.
Proof.
  intros Hd. set (F := fun e : string * key => match side (outs (snd e)) with Some o => match get o (fst e) with Some v => [(fst e, v)] | None => [] end | None => [] end).
  assert (H1 : forall n, flat_map F (match get p n with Some f => [(n, f)] | None => [] end) = match get d n with Some v => [(n, v)] | None => [] end).
  { intros n. rewrite (Hd n). destruct (get p n) as [f|]; [|reflexivity]. cbn [flat_map]. unfold F at 1. cbn [fst snd]. rewrite app_nil_r. destruct (side (outs f)) as [o|]; [|reflexivity]. reflexivity. }
  induction names as [|n names IH]; intros k Hk; [destruct Hk|]. unfold inputs. cbn [flat_map]. fold (inputs names p). rewrite flat_map_app, H1.
  destruct (String.eqb_spec n k) as [->|Hn].
  - destruct (get d k) as [v|] eqn:E; cbn [app get]; [rewrite String.eqb_refl; reflexivity|].
    destruct (in_dec string_dec k names) as [Hi|Hi]; [rewrite (IH k Hi); exact E|].
    apply get_None. intros Hin. apply in_map_iff in Hin as ((k' & v) & <- & Hin). apply in_flat_map in Hin as ((m & f) & Hm & Hv). unfold inputs in Hm. apply in_flat_map in Hm as (m' & Hm' & Hmf).
    destruct (get p m') as [f'|]; [|destruct Hmf]. destruct Hmf as [[= -> ->]|[]]. unfold F in Hv. cbn [fst snd] in Hv. destruct (side (outs f)) as [o|]; [|destruct Hv]. destruct (get o m); [|destruct Hv]. destruct Hv as [[= -> ->]|[]]. contradiction.
  - destruct Hk as [Hk|Hk]; [congruence|]. destruct (get d n) as [v|]; cbn [app get]; [|apply IH, Hk]. destruct (String.eqb_spec n k); [congruence|]. apply IH, Hk.
Qed.

(* one step: what the outputs are, and that they are what the key stands for *)
Lemma key_outs dfp seed fi st (s : step) : reads_only sem (sp_consumes (r_spec s)) s -> sound st ->
  outs (step_key sem dfp seed fi st s) =
  match prepare sem seed fi (st_train st) s with
  | Err _ => (None, None)
  | Ok (o, r) => match transform sem (r_id s) (r_params s) o (st_train st) r with
                 | Err _ => (None, None)
                 | Ok (x, r1) => (Some x, match transform sem (r_id s) (r_params s) o
                                     (match st_test st with Some t => t | None => [] end) r1 with Ok (y, _) => Some y | Err _ => None end)
                 end
  end \/ st_test st = None /\ fst (outs (step_key sem dfp seed fi st s)) =
  match prepare sem seed fi (st_train st) s with
  | Err _ => None
  | Ok (o, r) => match transform sem (r_id s) (r_params s) o (st_train st) r with Err _ => None | Ok (x, r1) => Some x end
  end.
Proof.
  intros Hr [Hs1 Hs2]. unfold step_key. cbn [outs].
  assert (Ht := Hr _ _ (rebuild_get fst _ _ _ Hs1)). destruct Ht as [Hf Ht].
  set (tr := flat_map _ (inputs (sp_consumes (r_spec s)) (p_train st))) in *. unfold prepare.
  destruct (fresh sem (r_id s) (r_params s)) as [o|e]; cbn [bind]; [|left; reflexivity].
  assert (Ep : (if sp_fittable (r_spec s) then match (if sp_fittable (r_spec s) then fi else None) with Some idx => fit sem (r_id s) (r_params s) o tr idx (rng_of sem (derive sem seed (r_id s) (r_index s))) | None => Err PreprocessError end else Ok (o, rng_of sem (derive sem seed (r_id s) (r_index s))))
    = (if sp_fittable (r_spec s) then match fi with Some idx => fit sem (r_id s) (r_params s) o (st_train st) idx (rng_of sem (derive sem seed (r_id s) (r_index s))) | None => Err PreprocessError end else Ok (o, rng_of sem (derive sem seed (r_id s) (r_index s))))).
  { destruct (sp_fittable (r_spec s)); [|reflexivity]. destruct fi; [apply Hf|reflexivity]. }
  rewrite Ep. clear Ep. match goal with |- context [match ?p with Ok _ => _ | Err _ => _ end] => destruct p as [[o1 r]|e] end; [|left; reflexivity].
  rewrite Ht. destruct (transform sem (r_id s) (r_params s) o1 (st_train st) r) as [[x r1]|e]; [|left; reflexivity].
  destruct (st_test st) as [t|]; [|right; split; reflexivity]. left. destruct Hs2 as [Hs2 Hne]. destruct t as [|e0 t0]; [congruence|].
  assert (Ht2 := Hr _ _ (rebuild_get snd _ _ _ Hs2)). destruct Ht2 as [_ Ht2]. rewrite Ht2. reflexivity.
Qed.

Lemma denotes_advance side d p x f : NoDup (map fst x) -> denotes side d p -> side (outs f) = Some x -> denotes side (set_all d x) (record p x f).
Proof.
  intros Hn Hd Hx k. rewrite set_all_get by exact Hn. rewrite record_get. unfold has. destruct (get x k) as [v|] eqn:E; [rewrite Hx; congruence|apply Hd].
Qed.
Lemma set_all_nonempty (x : dict V) : forall d, d <> [] -> set_all d x <> [].
Proof. induction x as [|e x IH]; intros d Hd; [exact Hd|]. unfold set_all. cbn [fold_left]. apply IH. destruct d as [|[a v] d]; [congruence|]. cbn [set]. destruct (String.eqb a (fst e)); discriminate. Qed.

(* states that agree entry by entry *)
Definition same (a b : dict V) : Prop := forall k, get a k = get b k.
Definition alike (a b : state) : Prop :=
  same (st_train a) (st_train b) /\ (forall k, get (p_train a) k = get (p_train b) k) /\
  match st_test a, st_test b with
  | Some x, Some y => same x y /\ x <> [] /\ y <> [] /\ (forall k, get (p_test a) k = get (p_test b) k)
  | None, None => True | _, _ => False end.
Lemma sound_alike a b : alike a b -> sound b -> sound a.
Proof.
  intros (H1 & H2 & H3) [S1 S2]. split; [intros k; rewrite H1, H2; apply S1|]. destruct (st_test a) as [x|], (st_test b) as [y|]; try contradiction; [|exact I].
  destruct H3 as (Hxy & Hx & Hy & Hp). destruct S2 as [S2 _]. split; [intros k; rewrite Hxy, Hp; apply S2|exact Hx].
Qed.
Lemma inputs_same (names : list string) (p q : list (string * key)) : (forall k, get p k = get q k) -> inputs names p = inputs names q.
Proof. intros H. unfold inputs. induction names as [|n names IH]; [reflexivity|]. cbn [flat_map]. rewrite H, IH. reflexivity. Qed.
Lemma key_alike dfp seed fi a b s : alike a b -> step_key sem dfp seed fi a s = step_key sem dfp seed fi b s.
Proof.
  intros (H1 & H2 & H3). unfold step_key. rewrite (inputs_same _ _ _ H2). destruct (st_test a) as [[|ex x]|], (st_test b) as [[|ey y]|]; try contradiction; try (destruct H3 as (_ & ? & ? & ?); congruence); [|reflexivity].
  destruct H3 as (_ & _ & _ & Hp). rewrite (inputs_same _ _ _ Hp). reflexivity.
Qed.

(* ---------------------------------------------------------------- the cache *)
Variable key_eqb : key -> key -> bool.
Variable saved : dict V -> dict V.
Hypothesis key_eqb_spec : forall a b, key_eqb a b = true <-> a = b.
Hypothesis saved_ok : saves_faithfully saved.
Definition side_of (train : bool) (p : option (dict V) * option (dict V)) : option (dict V) := if train then fst p else snd p.
Definition valid (c : cache V Pm DFp) : Prop :=
  forall f train o, cached key_eqb c f train = Some o -> exists o', side_of train (outs f) = Some o' /\ forall k v, get o k = Some v -> get o' k = Some v.
Lemma valid_nil : valid [].
Proof. intros f t o H. discriminate. Qed.
Lemma valid_store c f train x : valid c -> side_of train (outs f) = Some x -> valid (store saved c f train x).
Proof.
  intros Hv Hx g t o. unfold cached, store. cbn [find fst snd]. destruct (key_eqb f g && Bool.eqb train t) eqn:E.
  - intros [= <-]. apply andb_true_iff in E as [E1 E2]. apply key_eqb_spec in E1. apply eqb_prop in E2. subst g t. exists x. split; [exact Hx|apply saved_ok].
  - intros H. apply (Hv g t o). exact H.
Qed.
(* a complete entry has exactly the outputs *)
Lemma hit_same c f train produces o x : valid c -> hit key_eqb c f train produces = Some o -> side_of train (outs f) = Some x ->
  (forall k, In k (map fst x) -> In k produces) -> same o x.
Proof.
  intros Hv Hh Hx Hp k. unfold hit in Hh. destruct (cached key_eqb c f train) as [o0|] eqn:E; [|discriminate]. destruct (complete o0 produces) eqn:Ec; [|discriminate]. injection Hh as ->.
  destruct (Hv _ _ _ E) as (o' & Ho' & Hsub). rewrite Hx in Ho'. injection Ho' as <-. destruct (get o k) as [v|] eqn:Ek; [symmetry; apply Hsub, Ek|].
  destruct (get x k) as [w|] eqn:Ew; [|reflexivity]. exfalso. apply get_Some_In in Ew. apply Hp in Ew. unfold complete in Ec. rewrite forallb_forall in Ec. apply Ec in Ew. unfold has in Ew. rewrite Ek in Ew. discriminate.
Qed.
Lemma hit_valid c f train produces o : valid c -> hit key_eqb c f train produces = Some o -> side_of train (outs f) <> None.
Proof.
  intros Hv Hh. unfold hit in Hh. destruct (cached key_eqb c f train) as [o0|] eqn:E; [|discriminate]. destruct (Hv _ _ _ E) as (o' & Ho' & _). congruence.
Qed.
Lemma same_NoDup_set (d d' : dict V) x o : same d d' -> same o x -> NoDup (map fst x) -> NoDup (map fst o) -> same (set_all d o) (set_all d' x).
Proof. intros H1 H2 N1 N2 k. rewrite !set_all_get by assumption. rewrite H2, H1. reflexivity. Qed.
Hypothesis saved_dict : forall o, NoDup (map fst o) -> NoDup (map fst (saved o)).
Definition tidy (c : cache V Pm DFp) : Prop := forall f train o, cached key_eqb c f train = Some o -> NoDup (map fst o).
Lemma tidy_store c f train x : tidy c -> NoDup (map fst x) -> tidy (store saved c f train x).
Proof.
  intros Ht Hx g t o. unfold cached, store. cbn [find fst snd]. destruct (key_eqb f g && Bool.eqb train t); [intros [= <-]; apply saved_dict, Hx|apply (Ht g t o)].
Qed.
Lemma hit_tidy c f train produces o : tidy c -> hit key_eqb c f train produces = Some o -> NoDup (map fst o).
Proof.
  intros Ht Hh. unfold hit in Hh. destruct (cached key_eqb c f train) as [o0|] eqn:E; [|discriminate]. destruct (complete o0 produces); [|discriminate]. injection Hh as ->. eapply Ht, E.
Qed.
Lemma record_same (p q : list (string * key)) o x f : (forall k, get p k = get q k) -> same o x -> forall k, get (record p o f) k = get (record q x f) k.
Proof. intros Hp Ho k. rewrite !record_get. unfold has. rewrite Ho, Hp. reflexivity. Qed.

(* taking one split's outputs from the cache or computing them gives the same outputs *)
Lemma outputs_same c f train (s : step) o d r : valid c -> tidy c -> writes_declared sem s ->
  (forall x r', transform sem (r_id s) (r_params s) o d r = Ok (x, r') -> side_of train (outs f) = Some x) ->
  (forall e, transform sem (r_id s) (r_params s) o d r = Err e -> side_of train (outs f) = None) ->
  let (c1, res) := outputs sem key_eqb saved c f train s o d r in
  valid c1 /\ tidy c1 /\ match res, transform sem (r_id s) (r_params s) o d r with
                         | Ok (x, _), Ok (y, _) => same x y /\ NoDup (map fst x) /\ NoDup (map fst y)
                         | Err e, Err e' => e = e'
                         | _, _ => False end.
Proof.
  intros Hv Ht Hw Hok Herr. unfold outputs. destruct (hit key_eqb c f train (sp_produces (r_spec s))) as [x|] eqn:Eh.
  - split; [exact Hv|]. split; [exact Ht|]. destruct (transform sem (r_id s) (r_params s) o d r) as [[y r']|e] eqn:E.
    + destruct (Hw _ _ _ _ _ E) as [Ny Py]. split; [eapply hit_same; eauto|]. split; [eapply hit_tidy; eauto|exact Ny].
    + exfalso. apply (hit_valid _ _ _ _ _ Hv Eh). eapply Herr; eauto.
  - destruct (transform sem (r_id s) (r_params s) o d r) as [[y r']|e] eqn:E.
    + destruct (Hw _ _ _ _ _ E) as [Ny _]. split; [apply valid_store; [exact Hv|eapply Hok; eauto]|]. split; [apply tidy_store; assumption|]. split; [intros k; reflexivity|auto].
    + auto.
Qed.

Lemma step_cached dfp seed fi c a b (s : step) : settled sem s -> alike a b -> sound b -> valid c -> tidy c ->
  let (c1, res) := cached_step sem key_eqb saved dfp seed fi c a s in
  valid c1 /\ tidy c1 /\ match res, plain_step sem dfp seed fi b s with
                         | Ok a', Ok b' => alike a' b' /\ sound b'
                         | Err e, Err e' => e = e'
                         | _, _ => False end.
Proof.
  intros (Hr & Hw & Hq) Hab Hb Hv Ht. assert (Hk := key_outs dfp seed fi b s Hr Hb). unfold cached_step, plain_step. rewrite (key_alike dfp seed fi a b s Hab).
  set (f := step_key sem dfp seed fi b s) in *. clearbody f. destruct Hab as (A1 & A2 & A3). destruct (Hr _ _ (fun k _ => A1 k)) as [Hf Htr].
  assert (Ep : prepare sem seed fi (st_train a) s = prepare sem seed fi (st_train b) s).
  { unfold prepare. destruct (fresh sem (r_id s) (r_params s)) as [o|]; cbn [bind]; [|reflexivity]. destruct (sp_fittable (r_spec s)); [|reflexivity]. destruct fi; [apply Hf|reflexivity]. }
  rewrite Ep. destruct (prepare sem seed fi (st_train b) s) as [[o r]|e]; cbn [bind]; [|auto].
  assert (Ho := outputs_same c f true s o (st_train a) r Hv Ht Hw). rewrite Htr in Ho.
  destruct (outputs sem key_eqb saved c f true s o (st_train a) r) as [c1 res].
  destruct (transform sem (r_id s) (r_params s) o (st_train b) r) as [[x r1]|e] eqn:Ex; cbn [bind].
  2:{ destruct Ho as (Hv1 & Ht1 & Hres); [discriminate|intros e0 _; destruct Hk as [->|[_ Hk]]; [reflexivity|exact Hk]|]. destruct res as [[? ?]|?]; [contradiction|]. auto. }
  assert (Hfx : fst (outs f) = Some x) by (destruct Hk as [->|[_ Hk]]; [reflexivity|exact Hk]).
  destruct Ho as (Hv1 & Ht1 & Hres); [intros x0 r0 [= <- <-]; exact Hfx|discriminate|]. destruct res as [[x' r1']|?]; [|contradiction]. destruct Hres as (Sx & Nx' & Nx).
  destruct Hb as [B1 B2]. destruct (st_test a) as [ta|] eqn:Ea, (st_test b) as [tb|] eqn:Eb; try contradiction.
  - destruct A3 as (T1 & T2 & T3 & T4). destruct B2 as [B2 _]. destruct Hk as [Hk|[Hk _]]; [|discriminate Hk].
    destruct (Hr _ _ (fun k _ => T1 k)) as [_ Htr'].
    assert (Ho := outputs_same c1 f false s o ta r1' Hv1 Ht1 Hw). rewrite Htr' in Ho.
    assert (Hq' := Hq o tb r1' r1). unfold side_of in Ho. rewrite Hk in Ho. cbn [snd] in Ho.
    destruct (outputs sem key_eqb saved c1 f false s o ta r1') as [c2 res].
    destruct (transform sem (r_id s) (r_params s) o tb r1') as [[y' r2']|e'] eqn:Ey', (transform sem (r_id s) (r_params s) o tb r1) as [[y r2]|e] eqn:Ey; try contradiction; cbn [bind].
    + subst y'. destruct Ho as (Hv2 & Ht2 & Hres); [intros x0 r0 [= <- <-]; reflexivity|discriminate|]. destruct res as [[y' r3]|?]; [|contradiction]. destruct Hres as (Sy & Ny' & Ny).
      split; [exact Hv2|]. split; [exact Ht2|]. unfold advance. rewrite Ea, Eb. split; [split; [|split]|split]; cbn [st_train st_test p_train p_test].
      * apply same_NoDup_set; assumption.
      * apply record_same; assumption.
      * split; [apply same_NoDup_set; assumption|]. split; [apply set_all_nonempty, T2|]. split; [apply set_all_nonempty, T3|]. apply record_same; assumption.
      * apply denotes_advance; assumption.
      * split; [apply denotes_advance; [assumption|assumption|rewrite Hk; reflexivity]|apply set_all_nonempty, T3].
    + subst e'. destruct Ho as (Hv2 & Ht2 & Hres); [discriminate|intros; reflexivity|]. destruct res as [[? ?]|?]; [contradiction|]. auto.
  - split; [exact Hv1|]. split; [exact Ht1|]. cbn [bind]. unfold advance. rewrite Ea, Eb. split; [split; [|split]|split]; cbn [st_train st_test p_train p_test].
    + apply same_NoDup_set; assumption.
    + apply record_same; assumption.
    + exact I.
    + apply denotes_advance; assumption.
    + exact I.
Qed.
Lemma run_cached dfp seed fi : forall (l : list step) c a b, (forall s, In s l -> settled sem s) -> alike a b -> sound b -> valid c -> tidy c ->
  let (c1, res) := cached_run sem key_eqb saved dfp seed fi c a l in
  valid c1 /\ tidy c1 /\ match res, run sem dfp seed fi None b l with Ok a', Ok b' => alike a' b' | Err e, Err e' => e = e' | _, _ => False end.
Proof.
  induction l as [|s l IH]; intros c a b Hs Hab Hb Hv Ht; cbn [cached_run run]; [auto|].
  assert (H := step_cached dfp seed fi c a b s (Hs s (or_introl eq_refl)) Hab Hb Hv Ht). destruct (cached_step sem key_eqb saved dfp seed fi c a s) as [c1 [a'|e]], (plain_step sem dfp seed fi b s) as [b'|e']; cbn [bind]; destruct H as (Hv1 & Ht1 & H); try contradiction; [|auto].
  destruct H as [Hab' Hb']. apply IH; auto. intros t Hin. apply Hs. right. exact Hin.
Qed.
Lemma start_sound dfp : sound (start dfp (data_of dfp) : state).
Proof.
  assert (Hd : forall (d : dict V) k, get (map (fun e : string * V => (fst e, Raw dfp (fst e) : key)) d) k = if has d k then Some (Raw dfp k) else None).
  { intros d k. unfold has. induction d as [|[a v] d IH]; [reflexivity|]. cbn [map get fst]. destruct (String.eqb_spec a k) as [->|]; [reflexivity|exact IH]. }
  split; cbn [start st_train p_train st_test p_test].
  - intros k. rewrite Hd. unfold has. destruct (get (initial (d_train (data_of dfp))) k) eqn:E; [|reflexivity]. cbn [outs fst]. symmetry. exact E.
  - destruct (d_test (data_of dfp)) as [t|] eqn:Et; cbn [option_map]; [|exact I]. split.
    + intros k. rewrite Hd. unfold has. destruct (get (initial t) k) eqn:E; [|reflexivity]. cbn [outs snd]. rewrite Et. cbn [option_map]. symmetry. exact E.
    + intros E. assert (H := initial_X t). rewrite E in H. discriminate.
Qed.
Lemma finish_alike out ds a b : alike a b -> finish out ds a = finish out ds b.
Proof.
  assert (Hs : forall s x y, same x y -> finish_split out s x = finish_split out s y) by (intros s x y H; unfold finish_split, require, get_or; rewrite !H; reflexivity).
  intros (H1 & _ & H3). unfold finish. rewrite (Hs _ _ _ H1). destruct (d_test ds) as [s|]; [|reflexivity]. destruct (st_test a), (st_test b); try contradiction; [|reflexivity]. destruct H3 as [H3 _]. rewrite (Hs s _ _ H3). reflexivity.
Qed.
Lemma alike_refl dfp : alike (start dfp (data_of dfp)) (start dfp (data_of dfp)).
Proof.
  split; [intros k; reflexivity|]. split; [reflexivity|]. assert (H := start_sound dfp). destruct H as [_ H]. destruct (st_test (start dfp (data_of dfp))); [|exact I]. destruct H as [_ H]. repeat split; auto.
Qed.
Theorem session_same : forall (l : list (request Pm DFp)) c, (forall q s, In q l -> In s (q_steps q) -> settled sem s) -> valid c -> tidy c ->
  session sem key_eqb saved data_of c l = map (uncached sem data_of) l.
Proof.
  induction l as [|q l IH]; intros c Hs Hv Ht; [reflexivity|]. cbn [session map]. unfold cached_preprocess, uncached at 1, preprocess.
  assert (H := run_cached (q_data q) (q_seed q) (q_fit q) (q_steps q) c _ _ (fun s => Hs q s (or_introl eq_refl)) (alike_refl (q_data q)) (start_sound (q_data q)) Hv Ht).
  destruct (cached_run sem key_eqb saved (q_data q) (q_seed q) (q_fit q) c (start (q_data q) (data_of (q_data q))) (q_steps q)) as [c1 [a|e]];
  destruct (run sem (q_data q) (q_seed q) (q_fit q) None (start (q_data q) (data_of (q_data q))) (q_steps q)) as [b|e']; destruct H as (Hv1 & Ht1 & H); try contradiction; cbn [bind].
  - rewrite (finish_alike _ _ _ _ H). f_equal. apply IH; auto. intros q' s Hq'. apply Hs. right. exact Hq'.
  - subst e'. f_equal. apply IH; auto. intros q' s Hq'. apply Hs. right. exact Hq'.
Qed.
Theorem session_from_empty (l : list (request Pm DFp)) : (forall q s, In q l -> In s (q_steps q) -> settled sem s) ->
  session sem key_eqb saved data_of [] l = map (uncached sem data_of) l.
Proof. intros H. apply session_same; [exact H|apply valid_nil|intros f t o E; discriminate]. Qed.
End CacheProofs.
