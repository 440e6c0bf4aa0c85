(* Lemmas about PplanModel.v. *)
From Coq Require Import String.
From Verif Require Import Prelude FloatModel PreprocModel ViewsModel PyValue ViewsSpec ViewsProofs PplanModel PplanSpec.
Local Open Scope string_scope.
Local Open Scope Z_scope.
Local Open Scope list_scope.
Local Notation length := List.length.

Lemma binds {A B} (r : result A) (f : A -> result B) b : bind r f = Ok b -> exists a, r = Ok a /\ f a = Ok b.
Proof. destruct r as [a|e]; cbn; [eauto|discriminate]. Qed.
Lemma memS_in k l : memS k l = true <-> In k l.
Proof.
  unfold memS. rewrite existsb_exists. split.
  - intros (x & Hx & E). apply String.eqb_eq in E. subst x. exact Hx.
  - intros H. exists k. split; [exact H|apply String.eqb_refl].
Qed.
Lemma known_ok d ks : check_unknown_keys d ks = Ok tt <-> only d ks.
Proof.
  unfold check_unknown_keys, only. destruct (forallb _ (keys d)) eqn:E.
  - split; [intros _|reflexivity]. intros k v H. rewrite forallb_forall in E. apply memS_in, E. unfold keys. apply in_map_iff. exists (k, v). auto.
  - split; [discriminate|]. intros H. exfalso. assert (forallb (fun k => memS k ks) (keys d) = true); [|congruence]. apply forallb_forall. intros k Hk.
    unfold keys in Hk. apply in_map_iff in Hk. destruct Hk as ([k' v] & <- & Hk). apply memS_in. exact (H _ _ Hk).
Qed.
Lemma known_any d ks u : check_unknown_keys d ks = Ok u -> only d ks.
Proof. destruct u. apply known_ok. Qed.
Lemma get_some d k v z : lookup d k = Some v -> get_or d k z = v.
Proof. unfold get_or. intros ->. reflexivity. Qed.
Lemma get_none d k z : lookup d k = None -> get_or d k z = z.
Proof. unfold get_or. intros ->. reflexivity. Qed.
Lemma get_unset d k : unset d k -> get_or d k PNone = PNone.
Proof. unfold get_or. intros [-> | ->]; reflexivity. Qed.
Lemma str_bool s : s <> "" -> py_bool (PStr s) = true.
Proof. intros H. cbn. destruct (String.eqb_spec s ""); [contradiction|reflexivity]. Qed.
Lemma nempty s : s <> "" -> String.eqb s "" = false.
Proof. intros H. apply String.eqb_neq. exact H. Qed.

Lemma F2_impl {A B} (R S : A -> B -> Prop) l m : (forall a b, R a b -> S a b) -> Forall2 R l m -> Forall2 S l m.
Proof. intros H. induction 1; constructor; auto. Qed.
Section Read.
Variable o : Oracle.
Lemma strs l : map (py_str o) (map PStr l) = l.
Proof. induction l as [|x r IH]; [reflexivity|]. cbn. f_equal. exact IH. Qed.
Lemma texts_ok d k l : texts_written d k l -> texts o (get_or d k PNone) = Ok l.
Proof.
  intros [E|[E ->]].
  - rewrite (get_some _ _ _ _ E). unfold texts. destruct l as [|x r]; [reflexivity|].
    change (py_bool (PList (map PStr (x :: r)))) with true. cbn [iterate bind]. rewrite strs. reflexivity.
  - rewrite (get_unset _ _ E). reflexivity.
Qed.
Lemma finish_ok d c : params_written d (c_params c) -> texts_written d "modalities" (c_modalities c) -> texts_written d "requires_fields" (c_requires c) ->
  enabled_written d (c_enabled c) -> finish o (c_id c) d = Ok c.
Proof.
  intros P M R E. unfold finish.
  assert (Hp : match or_else (get_or d "params" (PDict [])) (PDict []) with PDict p => Ok p | _ => Err ValueError end = Ok (c_params c)).
  { destruct P as [P|[[P|P] ->]].
    - rewrite (get_some _ _ _ _ P). unfold or_else. destruct (c_params c); reflexivity.
    - rewrite (get_none _ _ _ P). reflexivity.
    - rewrite (get_some _ _ _ _ P). reflexivity. }
  rewrite Hp. cbn [bind]. rewrite (texts_ok _ _ _ M). cbn [bind]. rewrite (texts_ok _ _ _ R). cbn [bind].
  assert (He : py_bool (get_or d "enabled" (PBool true)) = c_enabled c).
  { destruct E as [E|[E ->]]; [rewrite (get_some _ _ _ _ E)|rewrite (get_none _ _ _ E)]; reflexivity. }
  rewrite He. destruct c. reflexivity.
Qed.
Lemma id_bench d id : id_written d id ->
  match lookup d "id", lookup d "step_id" with Some a, Some b => if String.eqb (py_str o a) (py_str o b) then Ok tt else Err ValueError | _, _ => Ok tt end = Ok tt /\
  py_str o (or_else (or_else (get_or d "id" PNone) (get_or d "step_id" PNone)) (PStr "")) = id /\
  py_str o (or_else (get_or d "id" PNone) (get_or d "step_id" PNone)) = id.
Proof.
  intros [Hne H]. pose proof (str_bool id Hne) as Hb. unfold absent, get_or in *. destruct H as [[-> ->]|[[-> ->]|[-> ->]]]; unfold or_else.
  - rewrite !Hb. repeat split.
  - change (py_bool PNone) with false. cbv iota. rewrite Hb. repeat split.
  - rewrite !Hb. cbn [py_str]. rewrite String.eqb_refl. repeat split.
Qed.
Lemma bench_step_written v c : step_written v c -> bench_step o v = Ok c /\ load_step o v = Ok c.
Proof.
  intros (d & -> & K & I & P & M & R & E). destruct (id_bench d _ I) as (C & I1 & I2). cbn [bench_step load_step].
  rewrite (proj2 (known_ok d step_keys) K). cbn [bind]. rewrite C. cbn [bind]. rewrite I1, I2. rewrite (nempty _ (proj1 I)). rewrite (finish_ok d c P M R E). auto.
Qed.
Lemma each_written f items cs : Forall2 (fun v c => f v = Ok c) items cs -> each f items = Ok cs.
Proof. induction 1 as [|v c r cs E _ IH]; [reflexivity|]. cbn [each]. rewrite E. cbn [bind]. rewrite IH. reflexivity. Qed.
Lemma list_ok d k l : list_written d k l -> match get_or d k (PList []) with PList l => Ok l | _ => Err ValueError end = Ok l /\ get_or d k (PList []) = PList l.
Proof. intros [E|[E ->]]; [rewrite (get_some _ _ _ _ E)|rewrite (get_none _ _ _ E)]; auto. Qed.
Lemma plan_written_ok v p : plan_written v p -> bench_plan o v = Ok p /\ load_plan o v = Ok p.
Proof.
  intros (d & items & -> & K & Ho & L & F). destruct (list_ok _ _ _ L) as [E1 E2]. cbn [bench_plan load_plan]. rewrite (proj2 (known_ok d _) K). cbn [bind].
  assert (Hk : py_str o (get_or d "output_key" (PStr "features.X")) = pl_key p).
  { destruct Ho as [E|[E ->]]; [rewrite (get_some _ _ _ _ E)|rewrite (get_none _ _ _ E)]; reflexivity. }
  rewrite Hk, E2. cbn [bind].
  assert (F1 : each (bench_step o) items = Ok (pl_steps p)).
  { apply each_written. eapply F2_impl; [|exact F]. intros a b H. apply (bench_step_written a b H). }
  assert (F2 : each (load_step o) items = Ok (pl_steps p)).
  { apply each_written. eapply F2_impl; [|exact F]. intros a b H. apply (bench_step_written a b H). }
  rewrite F1, F2. cbn [bind]. destruct p. auto.
Qed.

(* the bench reads fewer plans, and those alike *)
Lemma stricter_step v c : bench_step o v = Ok c -> load_step o v = Ok c.
Proof.
  destruct v as [| | | | | |d]; try discriminate. cbn [bench_step load_step]. intros H. apply binds in H. destruct H as (u & _ & H). apply binds in H. destruct H as (u2 & _ & H).
  revert H. unfold or_else. destruct (py_bool (get_or d "id" PNone)) eqn:E1.
  - rewrite E1. auto.
  - destruct (py_bool (get_or d "step_id" PNone)) eqn:E2; [auto|]. cbn. discriminate.
Qed.
Lemma stricter_each l : forall cs, each (bench_step o) l = Ok cs -> each (load_step o) l = Ok cs.
Proof.
  induction l as [|v r IH]; intros cs H; [exact H|]. cbn [each] in *. apply binds in H. destruct H as (c & E & H). apply binds in H. destruct H as (cs' & E' & H).
  rewrite (stricter_step _ _ E). cbn [bind]. rewrite (IH _ E'). cbn [bind]. exact H.
Qed.
Lemma stricter v p : bench_plan o v = Ok p -> load_plan o v = Ok p.
Proof.
  destruct v as [| | | | | |d]; try discriminate. cbn [bench_plan load_plan]. intros H. apply binds in H. destruct H as (u & _ & H). apply binds in H. destruct H as (l & El & H).
  apply binds in H. destruct H as (cs & Ec & H). destruct (get_or d "steps" (PList [])); try discriminate. injection El as ->. cbn [bind].
  rewrite (stricter_each _ _ Ec). exact H.
Qed.

(* refusals *)
Lemma bad_step_err v c : bad_step v -> bench_step o v <> Ok c.
Proof.
  intros B H. destruct v as [| | | | | |d]; try discriminate. cbn [bench_step] in H. apply binds in H. destruct H as (u & K & H). apply binds in H. destruct H as (u2 & C & H).
  apply known_any in K. inversion B as [v N|d' k x ks Eks Hi Hn|d' N1 N2|d' a b Ea Eb Hab|d' l x Ep]; subst.
  - exact (N d eq_refl).
  - apply Hn, (K _ _ Hi).
  - assert (Hz : forall k, unset d k \/ lookup d k = Some (PStr "") -> py_bool (get_or d k PNone) = false).
    { intros k [Hk|Hk]; [rewrite (get_unset _ _ Hk)|rewrite (get_some _ _ _ _ Hk)]; reflexivity. }
    unfold or_else in H. rewrite (Hz _ N1), (Hz _ N2) in H. cbn in H. discriminate.
  - rewrite Ea, Eb in C. cbn [py_str] in C. rewrite (proj2 (String.eqb_neq a b) Hab) in C. discriminate.
  - destruct (String.eqb _ ""); [discriminate|]. unfold finish in H. rewrite (get_some _ _ _ _ Ep) in H. cbn in H. discriminate.
Qed.
Lemma each_in f l : forall cs v, each f l = Ok cs -> In v l -> exists c, f v = Ok c.
Proof.
  induction l as [|w r IH]; intros cs v H Hi; [destruct Hi|]. cbn [each] in H. apply binds in H. destruct H as (c & E & H). apply binds in H. destruct H as (cs' & E' & H).
  destruct Hi as [<-|Hi]; [eauto|exact (IH _ _ E' Hi)].
Qed.
Lemma bad_plan_err v p : bad_plan v -> bench_plan o v <> Ok p.
Proof.
  intros B H. destruct v as [| | | | | |d]; try discriminate. cbn [bench_plan] in H. apply binds in H. destruct H as (u & K & H). apply binds in H. destruct H as (l & El & H).
  apply binds in H. destruct H as (cs & Ec & H). apply known_any in K. inversion B as [v N|d' k x Hi N1 N2|d' v Es N|d' l' v Es Hi Hb]; subst.
  - exact (N d eq_refl).
  - destruct (K _ _ Hi) as [<-|[<-|[]]]; contradiction.
  - rewrite (get_some _ _ _ _ Es) in El. destruct v; try discriminate. exact (N _ eq_refl).
  - rewrite (get_some _ _ _ _ Es) in El. injection El as <-. destruct (each_in _ _ _ _ Ec Hi) as (c & E). exact (bad_step_err _ _ Hb E).
Qed.

(* ---- views *)
Lemma mode_ok m k : mode_named m k -> mode_of m = k.
Proof.
  intros [| | | |s H1 H2 H3 H4]; try reflexivity. unfold mode_of.
  rewrite (proj2 (String.eqb_neq _ _) H1), (proj2 (String.eqb_neq _ _) H2), (proj2 (String.eqb_neq _ _) H3), (proj2 (String.eqb_neq _ _) H4). reflexivity.
Qed.
Lemma ints l : py_ints o (map PInt l) = Ok l.
Proof. induction l as [|z r IH]; [reflexivity|]. cbn. rewrite IH. reflexivity. Qed.
Lemma columns_ok v s : columns_written v s -> column_spec o v = Ok s.
Proof.
  intros (d & -> & K & M & I & F & C & S). cbn [column_spec]. rewrite (proj2 (known_ok d column_keys) K). cbn [bind].
  assert (Hm : mode_of (py_str o (get_or d "mode" (PStr "all"))) = cs_mode s).
  { destruct M as [(m & E & N)|[E ->]]; [rewrite (get_some _ _ _ _ E); apply mode_ok, N|rewrite (get_none _ _ _ E); reflexivity]. }
  assert (Hi : exists l, (if py_bool (get_or d "indices" (PList [])) then iterate (get_or d "indices" (PList [])) else Ok []) = Ok l /\ py_ints o l = Ok (cs_indices s)).
  { destruct I as [E|[[E|E] ->]].
    - rewrite (get_some _ _ _ _ E). exists (map PInt (cs_indices s)). split; [destruct (cs_indices s); reflexivity|apply ints].
    - rewrite (get_none _ _ _ E). exists []. auto.
    - rewrite (get_some _ _ _ _ E). exists []. auto. }
  destruct Hi as (l & Hl & Hi). rewrite Hm, Hl. cbn [bind]. rewrite Hi. cbn [bind].
  assert (Hf : py_float o (get_or d "fraction" (PFloat half)) = Ok (cs_fraction s)).
  { destruct F as [E|[E ->]]; [rewrite (get_some _ _ _ _ E)|rewrite (get_none _ _ _ E)]; reflexivity. }
  rewrite Hf. cbn [bind].
  assert (Hs : py_int o (get_or d "seed_offset" (PInt 0)) = Ok (cs_seed_offset s)).
  { destruct S as [E|[E ->]]; [rewrite (get_some _ _ _ _ E)|rewrite (get_none _ _ _ E)]; reflexivity. }
  rewrite Hs. cbn [bind].
  assert (Hc : (if py_bool (get_or d "complement_of" PNone) then Some (py_str o (get_or d "complement_of" PNone)) else None) = cs_complement_of s).
  { destruct C as [(t & N & E & ->)|[E ->]]; [rewrite (get_some _ _ _ _ E), (str_bool t N); reflexivity|rewrite (get_unset _ _ E); reflexivity]. }
  rewrite Hc. destruct s. reflexivity.
Qed.
Lemma plan_not_none x p : plan_written x p -> exists d, x = PDict d.
Proof. intros (d & items & -> & _). eauto. Qed.
Lemma view_ok v s : view_written v s -> bench_view o v = Ok s.
Proof.
  intros (d & -> & K & N & Hne & P & C & M). cbn [bench_view]. rewrite (proj2 (known_ok d _) K). cbn [bind]. rewrite (get_some _ _ _ _ N). cbn [py_str].
  rewrite (nempty _ Hne).
  assert (Hp : match get_or d "preprocess" PNone with PNone => Ok None | p => do q <- bench_plan o p; Ok (Some q) end = Ok (v_preprocess s)).
  { destruct P as [(x & p & E & W & ->)|[E ->]]; [|rewrite (get_unset _ _ E); reflexivity]. rewrite (get_some _ _ _ _ E).
    destruct (plan_not_none x p W) as (dx & ->). rewrite (proj1 (plan_written_ok _ _ W)). reflexivity. }
  rewrite Hp. cbn [bind].
  assert (Hc : match get_or d "columns" PNone with PNone => Ok None | p => do q <- column_spec o p; Ok (Some q) end = Ok (v_columns s)).
  { destruct C as [(x & c & E & W & ->)|[E ->]]; [|rewrite (get_unset _ _ E); reflexivity]. rewrite (get_some _ _ _ _ E). pose proof (columns_ok _ _ W) as W'.
    destruct W as (dx & -> & _). rewrite W'. reflexivity. }
  rewrite Hc. cbn [bind].
  assert (Hm : match get_or d "meta" PNone with PNone => Ok tt | PDict _ => Ok tt | _ => Err ValueError end = Ok tt).
  { destruct M as [(m & E)|E]; [rewrite (get_some _ _ _ _ E)|rewrite (get_unset _ _ E)]; reflexivity. }
  rewrite Hm. cbn [bind]. destruct s. reflexivity.
Qed.
Lemma views_each items vs : Forall2 view_written items vs -> bench_views o items = Ok vs.
Proof. induction 1 as [|v s r vs W _ IH]; [reflexivity|]. cbn [bench_views]. rewrite (view_ok _ _ W). cbn [bind]. rewrite IH. reflexivity. Qed.
Lemma validate_err {P} (l : list (view_spec P)) e : validate_plan l = Err e -> e = ViewsError.
Proof.
  assert (Hc : forall s e, validate_columns s = Err e -> e = ViewsError).
  { intros s e0. unfold validate_columns. destruct (cs_mode s); try congruence.
    - destruct (cs_indices s); [congruence|]. destruct (existsb _ _); congruence.
    - destruct (_ && _); congruence.
    - destruct (target s); congruence. }
  unfold validate_plan. destruct (_ <? 2)%nat; [congruence|]. destruct (dup_names _); [congruence|].
  assert (He : forall l (e0 : exn), validate_each (P := P) l = Err e0 -> e0 = ViewsError).
  { induction l0 as [|v r IH]; cbn [validate_each]; [discriminate|]. intros e0. destruct (validate_view v) as [u|e1] eqn:E; cbn [bind]; [apply IH|].
    intros [= <-]. unfold validate_view in E. destruct (blank _); [congruence|]. destruct (v_columns v) as [s|]; [exact (Hc _ _ E)|discriminate]. }
  assert (Ho : forall l seen (e0 : exn), validate_order (P := P) l seen = Err e0 -> e0 = ViewsError).
  { induction l0 as [|v r IH]; intros seen e0; cbn [validate_order]; [discriminate|].
    destruct (v_columns v) as [s|]; cbn [bind]; [|apply IH]. destruct (cs_mode s); cbn [bind]; try apply IH. destruct (target s); [|cbn; congruence].
    destruct (memN _ _); cbn [bind]; [apply IH|congruence]. }
  destruct (validate_each l) as [u|e1] eqn:E; cbn [bind]; [apply Ho|]. intros [= <-]. exact (He _ _ E).
Qed.
Lemma views_written_ok v vs : views_written v vs ->
  (views_plan o v = Ok vs <-> well_formed_plan vs) /\ (~ well_formed_plan vs -> views_plan o v = Err ViewsError).
Proof.
  intros (d & items & -> & K & L & F). destruct (list_ok _ _ _ L) as [_ E2]. cbn [views_plan]. rewrite (proj2 (known_ok d _) K). cbn [bind]. rewrite E2. cbn [bind].
  rewrite (views_each _ _ F). cbn [bind]. destruct (validate_plan vs) as [[]|e] eqn:Ev; cbn [bind].
  - apply validate_plan_ok in Ev. split; [tauto|]. intros N. contradiction.
  - split; [split; [discriminate|]|].
    + intros W. apply validate_plan_ok in W. congruence.
    + intros _. rewrite (validate_err _ _ Ev). reflexivity.
Qed.
Lemma views_in l : forall vs, bench_views o l = Ok vs -> Forall2 (fun v s => bench_view o v = Ok s) l vs.
Proof.
  induction l as [|v r IH]; intros vs H; cbn [bench_views] in H; [injection H as <-; constructor|]. apply binds in H. destruct H as (s & E & H). apply binds in H.
  destruct H as (ss & E' & H). injection H as <-. constructor; [exact E|exact (IH _ E')].
Qed.
Lemma F2_in {A B} (R : A -> B -> Prop) l m a : Forall2 R l m -> In a l -> exists b, R a b.
Proof. induction 1 as [|x y l m H _ IH]; [intros []|]. intros [<-|Hi]; eauto. Qed.
Lemma bad_view_err v s : bad_view v -> bench_view o v <> Ok s.
Proof.
  intros B H. destruct v as [| | | | | |d]; try discriminate. cbn [bench_view] in H. apply binds in H. destruct H as (u & K & H). apply known_any in K.
  destruct (String.eqb (py_str o (get_or d "name" (PStr ""))) "") eqn:En; [discriminate|]. apply binds in H. destruct H as (pre & Ep & H). apply binds in H.
  destruct H as (cols & Ec & H). apply binds in H. destruct H as (u2 & Em & H).
  inversion B as [v N|d' k x Hi Hn|d' N|d' x E Hx Hb|d' c k x E Hi Hn|d' l E]; subst.
  - exact (N d eq_refl).
  - apply Hn, (K _ _ Hi).
  - destruct N as [N|N]; [rewrite (get_none _ _ _ N) in En|rewrite (get_some _ _ _ _ N) in En]; discriminate.
  - rewrite (get_some _ _ _ _ E) in Ep. destruct x; try contradiction; apply binds in Ep; destruct Ep as (q & Eq & _); exact (bad_plan_err _ _ Hb Eq).
  - rewrite (get_some _ _ _ _ E) in Ec. apply binds in Ec. destruct Ec as (q & Eq & _). cbn [column_spec] in Eq. apply binds in Eq. destruct Eq as (u3 & K3 & _).
    apply known_any in K3. exact (Hn (K3 _ _ Hi)).
  - rewrite (get_some _ _ _ _ E) in Em. discriminate.
Qed.
Lemma bad_views_err v vs : bad_views v -> views_plan o v <> Ok vs.
Proof.
  intros B H. destruct v as [| | | | | |d]; try discriminate. cbn [views_plan] in H. apply binds in H. destruct H as (u & K & H). apply known_any in K. apply binds in H.
  destruct H as (l & El & H). apply binds in H. destruct H as (ws & Ew & H).
  inversion B as [v N|d' k x Hi Hn|d' l' v E Hi Hb]; subst.
  - exact (N d eq_refl).
  - destruct (K _ _ Hi) as [<-|[]]. contradiction.
  - rewrite (get_some _ _ _ _ E) in El. injection El as <-. destruct (F2_in _ _ _ _ (views_in _ _ Ew) Hi) as (s & Es). exact (bad_view_err _ _ Hb Es).
Qed.
Lemma views_sound v vs : views_plan o v = Ok vs -> well_formed_plan vs /\
  exists d items, v = PDict d /\ lookup d "views" = Some (PList items) /\
  Forall2 (fun item s => exists e x, item = PDict e /\ lookup e "name" = Some x /\ v_name s = py_str o x) items vs.
Proof.
  destruct v as [| | | | | |d]; try discriminate. cbn [views_plan]. intros H. apply binds in H. destruct H as (u & K & H). apply binds in H.
  destruct H as (l & El & H). apply binds in H. destruct H as (ws & Ew & H). apply binds in H. destruct H as (u2 & Ev & H). injection H as ->. destruct u2.
  apply validate_plan_ok in Ev. split; [exact Ev|]. exists d. assert (Hl : l <> []).
  { intros ->. cbn in Ew. injection Ew as <-. destruct Ev as [Ev _]. cbn in Ev. lia. }
  exists l. split; [reflexivity|]. split.
  - unfold get_or in El. destruct (lookup d "views") as [x|]; [|injection El as <-; contradiction]. destruct x; try discriminate. injection El as ->. reflexivity.
  - eapply F2_impl; [|exact (views_in _ _ Ew)]. clear. intros item s H. cbn beta in H. destruct item as [| | | | | |e]; try discriminate. cbn [bench_view] in H.
    apply binds in H. destruct H as (u & _ & H). destruct (String.eqb (py_str o (get_or e "name" (PStr ""))) "") eqn:En; [discriminate|].
    apply binds in H. destruct H as (a & _ & H). apply binds in H. destruct H as (b & _ & H). apply binds in H. destruct H as (w & _ & H). injection H as <-.
    unfold get_or in En |- *. exists e. destruct (lookup e "name") as [x|] eqn:E; [|discriminate]. exists x. rewrite <- E. auto.
Qed.
End Read.
Lemma to_dict_written p : (forall c, In c (pl_steps p) -> c_id c <> "") -> plan_written (PDict (to_dict p)) p.
Proof.
  intros H. exists (to_dict p), (map step_dict (pl_steps p)). split; [reflexivity|]. split.
  { intros k v [[= <- _]|[[= <- _]|[]]]; cbn; auto. }
  split; [left; reflexivity|]. split; [left; reflexivity|]. revert H. generalize (pl_steps p). induction l as [|c r IH]; intros H; [constructor|]. cbn [map]. constructor.
  - eexists. split; [reflexivity|]. split.
    { intros k v Hi. cbn in Hi. destruct Hi as [[= <- _]|[[= <- _]|[[= <- _]|[[= <- _]|[[= <- _]|[]]]]]]; cbn; tauto. }
    split; [split; [apply H; left; reflexivity|left; split; reflexivity]|]. split; [left; reflexivity|]. split; [left; reflexivity|]. split; left; reflexivity.
  - apply IH. intros x Hx. apply H. right. exact Hx.
Qed.

Lemma each_bad f l v : In v l -> (forall c, f v <> Ok c) -> forall cs, each f l <> Ok cs.
Proof.
  induction l as [|x l IH]; intros Hin Hf cs; [contradiction|]. cbn [each]. destruct (f x) as [c|e] eqn:E; [|discriminate]. cbn [bind].
  destruct Hin as [->|Hin]; [congruence|]. specialize (IH Hin Hf). destruct (each f l) as [cs'|e] eqn:El; [exfalso; apply (IH cs' eq_refl)|discriminate].
Qed.
Lemma bad_library_step_err o v : bad_library_step v -> forall c, load_step o v <> Ok c.
Proof.
  intros H c. destruct H as [v Hv|d Hi Hs|d l x Hp]; cbn [load_step].
  - destruct v; try discriminate. congruence.
  - assert (Hid : or_else (get_or d "id" PNone) (get_or d "step_id" PNone) = PStr "").
    { unfold or_else, get_or. rewrite Hs. destruct Hi as [[->| ->]| ->]; reflexivity. }
    rewrite Hid. cbn. discriminate.
  - destruct (String.eqb _ _); [discriminate|]. unfold finish, or_else, get_or. rewrite Hp. cbn. discriminate.
Qed.
Lemma bad_library_err o v p : bad_library_plan v -> load_plan o v <> Ok p.
Proof.
  intros H. destruct H as [v Hv|d v Hs Hl He|d l v Hs Hin Hb]; cbn [load_plan].
  - destruct v; try discriminate. congruence.
  - rewrite (get_some d "steps" _ (PList []) Hs). destruct v as [| | | |s|l|]; try discriminate; [|congruence]. cbn [iterate bind]. destruct s as [|a s]; [congruence|]. cbn. discriminate.
  - rewrite (get_some d "steps" _ (PList []) Hs). cbn [bind]. assert (HE := each_bad (load_step o) l v Hin (bad_library_step_err o v Hb)). destruct (each (load_step o) l) as [cs|e]; [exfalso; apply (HE cs eq_refl)|discriminate].
Qed.
