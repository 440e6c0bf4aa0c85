(* Proofs about garbage collection of the dataset cache (C17) and the bulk download report (C18). *)
From Coq Require Import String.
From Verif Require Import Prelude ListFacts PyValue IndexModel.
Local Open Scope list_scope.

Lemma memS_in k l : memS k l = true <-> In k l.
Proof.
  unfold memS. rewrite existsb_exists. split.
  - intros (x & Hx & E). apply String.eqb_eq in E. subst; exact Hx.
  - intros H. exists k. split; [exact H|apply String.eqb_refl].
Qed.
Lemma memS_not_in k l : memS k l = false <-> ~ In k l.
Proof. rewrite <- memS_in. destruct (memS k l); split; congruence. Qed.

(* ------------------------------------------------------------------------------------- gc *)
Section Gc.
Context {T : Type}.

Fixpoint gc_kept (rows : list (row T)) (latest : list string) : list (row T) :=
  match rows with
  | [] => []
  | r :: rest => if memS (r_uri r) latest then gc_kept rest latest
                 else r :: gc_kept rest (r_uri r :: latest)
  end.
Fixpoint gc_dead (rows : list (row T)) (latest : list string) : list (row T) :=
  match rows with
  | [] => []
  | r :: rest => if memS (r_uri r) latest then r :: gc_dead rest latest
                 else gc_dead rest (r_uri r :: latest)
  end.

Lemma gc_scan_dead rows : forall latest, gc_scan rows latest = map r_fp (gc_dead rows latest).
Proof.
  induction rows as [|r rest IH]; intros latest; cbn; [reflexivity|].
  destruct (memS (r_uri r) latest); cbn; [f_equal|]; apply IH.
Qed.

Lemma gc_perm rows : forall latest, Permutation rows (gc_kept rows latest ++ gc_dead rows latest).
Proof.
  induction rows as [|r rest IH]; intros latest; cbn; [constructor|].
  destruct (memS (r_uri r) latest); cbn.
  - apply Permutation_cons_app, IH.
  - constructor. apply IH.
Qed.

Lemma gc_kept_fresh rows : forall latest r, In r (gc_kept rows latest) -> ~ In (r_uri r) latest.
Proof.
  induction rows as [|x rest IH]; intros latest r; cbn; [intros []|].
  destruct (memS (r_uri x) latest) eqn:E.
  - apply IH.
  - intros [<-|H]; [apply memS_not_in, E|]. apply IH in H. intros Hc. apply H. right; exact Hc.
Qed.

Lemma gc_kept_nodup rows : forall latest, NoDup (map r_uri (gc_kept rows latest)).
Proof.
  induction rows as [|x rest IH]; intros latest; cbn; [constructor|].
  destruct (memS (r_uri x) latest); cbn; [apply IH|]. constructor; [|apply IH].
  rewrite in_map_iff. intros (y & E & Hy). apply gc_kept_fresh in Hy. apply Hy. left. congruence.
Qed.

Lemma gc_kept_covers rows : forall latest r, In r rows ->
  In (r_uri r) latest \/ exists q, In q (gc_kept rows latest) /\ r_uri q = r_uri r.
Proof.
  induction rows as [|x rest IH]; intros latest r; cbn; [intros []|].
  destruct (memS (r_uri x) latest) eqn:E.
  - intros [<-|H]; [left; apply memS_in, E|apply IH, H].
  - intros [<-|H]; [right; exists x; cbn; auto|].
    destruct (IH (r_uri x :: latest) r H) as [[Hc|Hc]|(q & Hq & Hu)].
    + right. exists x. cbn; auto.
    + auto.
    + right. exists q. cbn; auto.
Qed.

Variable at_least : T -> T -> Prop.

Definition row_before (a b : row T) : Prop := r_uri a = r_uri b -> at_least (r_at a) (r_at b).

Lemma gc_kept_newest rows : (forall t, at_least t t) -> StronglySorted row_before rows ->
  forall latest q r, In q (gc_kept rows latest) -> In r rows -> r_uri r = r_uri q ->
  at_least (r_at q) (r_at r).
Proof.
  intros Hrefl Hs. induction Hs as [|x rest Hr IH Hx]; intros latest q r; cbn; [intros []|].
  destruct (memS (r_uri x) latest) eqn:E.
  - intros Hq [<-|Hi] Hu.
    + exfalso. apply (gc_kept_fresh _ _ _ Hq). rewrite <- Hu. apply memS_in, E.
    + eapply IH; eassumption.
  - intros [<-|Hq] [<-|Hi] Hu.
    + apply Hrefl.
    + rewrite Forall_forall in Hx. apply (Hx r Hi). congruence.
    + exfalso. apply (gc_kept_fresh _ _ _ Hq). left. exact Hu.
    + eapply IH; eassumption.
Qed.

Lemma delete_fold fps : forall table : list (row T),
  fold_left index_delete fps table = filter (fun x => negb (memS (r_fp x) fps)) table.
Proof.
  induction fps as [|fp r IH]; intros table; cbn.
  - induction table as [|x t IHt]; cbn; congruence.
  - rewrite IH. unfold index_delete. induction table as [|x t IHt]; [reflexivity|].
    cbn. destruct (String.eqb (r_fp x) fp) eqn:E; cbn.
    + exact IHt.
    + fold (memS (r_fp x) r). destruct (memS (r_fp x) r); cbn; [exact IHt|f_equal; exact IHt].
Qed.

Lemma fp_inj (table : list (row T)) a b : NoDup (map r_fp table) -> In a table -> In b table ->
  r_fp a = r_fp b -> a = b.
Proof.
  induction table as [|x t IH]; cbn; [intros _ []|]. intros Hn Ha Hb E.
  inversion Hn as [|? ? Hni Hn']; subst.
  destruct Ha as [<-|Ha], Hb as [<-|Hb]; auto.
  - exfalso. apply Hni. rewrite E. apply in_map, Hb.
  - exfalso. apply Hni. rewrite <- E. apply in_map, Ha.
Qed.

Lemma gc_table (table ordered : list (row T)) : NoDup (map r_fp table) -> Permutation ordered table ->
  forall r, In r (fst (gc_keep_latest table ordered)) <-> In r (gc_kept ordered []).
Proof.
  intros Hn Hp r. unfold gc_keep_latest. cbn. rewrite delete_fold, gc_scan_dead, filter_In.
  assert (Hpo : NoDup (map r_fp (gc_kept ordered [] ++ gc_dead ordered []))).
  { eapply Permutation_NoDup; [|exact Hn]. apply Permutation_map. symmetry.
    transitivity ordered; [symmetry; apply gc_perm|exact Hp]. }
  rewrite map_app in Hpo. apply NoDup_app_iff in Hpo. destruct Hpo as (_ & _ & Hdis).
  split.
  - intros [Hr Hd]. assert (Hro : In r ordered) by (eapply Permutation_in; [symmetry; exact Hp|exact Hr]).
    apply (Permutation_in _ (gc_perm ordered [])) in Hro. apply in_app_or in Hro.
    destruct Hro as [Hro|Hro]; [exact Hro|]. exfalso.
    assert (memS (r_fp r) (map r_fp (gc_dead ordered [])) = true) as E by (apply memS_in, in_map, Hro).
    rewrite E in Hd. discriminate.
  - intros Hk. split.
    + eapply Permutation_in; [exact Hp|]. eapply Permutation_in; [symmetry; apply (gc_perm ordered [])|].
      apply in_or_app; auto.
    + apply negb_true_iff, memS_not_in. apply Hdis, in_map, Hk.
Qed.

Lemma gc_dead_table (table ordered : list (row T)) : NoDup (map r_fp table) -> Permutation ordered table ->
  forall fp, In fp (snd (gc_keep_latest table ordered)) <->
    exists r, In r table /\ r_fp r = fp /\ ~ In r (fst (gc_keep_latest table ordered)).
Proof.
  intros Hn Hp fp. split.
  - intros H. pose proof H as H0. unfold gc_keep_latest in H. cbn in H. rewrite gc_scan_dead, in_map_iff in H.
    destruct H as (r & Hfp & Hr). exists r. split; [|split; [exact Hfp|]].
    + eapply Permutation_in; [exact Hp|]. eapply Permutation_in; [symmetry; apply (gc_perm ordered [])|].
      apply in_or_app; auto.
    + unfold gc_keep_latest. cbn. rewrite delete_fold, filter_In. intros [_ Hf].
      apply negb_true_iff, memS_not_in in Hf. apply Hf. rewrite gc_scan_dead. apply in_map, Hr.
  - intros (r & Hr & <- & Hk). rewrite gc_table in Hk by assumption.
    unfold gc_keep_latest. cbn. rewrite gc_scan_dead. apply in_map.
    assert (Hro : In r ordered) by (eapply Permutation_in; [symmetry; exact Hp|exact Hr]).
    apply (Permutation_in _ (gc_perm ordered [])) in Hro. apply in_app_or in Hro. tauto.
Qed.

Lemma nodup_map_inj {X Y} (g : X -> Y) l a b : NoDup (map g l) -> In a l -> In b l -> g a = g b -> a = b.
Proof.
  induction l as [|x t IH]; cbn; [intros _ []|]. intros Hn Ha Hb E.
  inversion Hn as [|? ? Hni Hn']; subst.
  destruct Ha as [<-|Ha], Hb as [<-|Hb]; auto.
  - exfalso. apply Hni. rewrite E. apply in_map, Hb.
  - exfalso. apply Hni. rewrite <- E. apply in_map, Ha.
Qed.

Lemma gc_correct (table ordered : list (row T)) :
  (forall t, at_least t t) -> NoDup (map r_fp table) -> Permutation ordered table ->
  StronglySorted row_before ordered ->
  let '(table', dead) := gc_keep_latest table ordered in
  (forall r, In r table' -> In r table) /\
  (forall fp, In fp dead <-> exists r, In r table /\ r_fp r = fp /\ ~ In r table') /\
  (forall r, In r table -> exists q, In q table' /\ r_uri q = r_uri r /\ at_least (r_at q) (r_at r) /\
     forall q', In q' table' -> r_uri q' = r_uri r -> q' = q).
Proof.
  intros Hrefl Hn Hp Hs.
  pose proof (gc_table table ordered Hn Hp) as H1. pose proof (gc_dead_table table ordered Hn Hp) as H2.
  destruct (gc_keep_latest table ordered) as [table' dead] eqn:E. cbn [fst snd] in *.
  split; [|split; [exact H2|]].
  - intros r Hr. unfold gc_keep_latest in E. injection E as <- _. rewrite delete_fold in Hr.
    apply filter_In in Hr. tauto.
  - intros r Hr. assert (Hro : In r ordered) by (eapply Permutation_in; [symmetry; exact Hp|exact Hr]).
    destruct (gc_kept_covers ordered [] r Hro) as [[]|(q & Hq & Hu)].
    exists q. split; [apply H1, Hq|]. split; [exact Hu|]. split.
    + eapply gc_kept_newest; eauto.
    + intros q' Hq' Hu'. apply H1 in Hq'. eapply nodup_map_inj; [apply gc_kept_nodup| | |]; eauto. congruence.
Qed.
End Gc.

Lemma upsert_spec {T} (table : list (row T)) r :
  NoDup (map r_fp table) ->
  NoDup (map r_fp (index_upsert table r)) /\
  (forall x, In x (index_upsert table r) <-> x = r \/ (In x table /\ r_fp x <> r_fp r)).
Proof.
  intros Hn. unfold index_upsert. destruct (memS (r_fp r) (map r_fp table)) eqn:E.
  - assert (Hm : map r_fp (map (fun x => if String.eqb (r_fp x) (r_fp r) then r else x) table) = map r_fp table).
    { rewrite map_map. apply map_ext. intros x. destruct (String.eqb_spec (r_fp x) (r_fp r)); congruence. }
    split; [rewrite Hm; exact Hn|]. intros x. rewrite in_map_iff. split.
    + intros (y & Hy & Hin). destruct (String.eqb_spec (r_fp y) (r_fp r)); [left; congruence|].
      right. subst x. auto.
    + intros [->|[Hi Hne]].
      * apply memS_in, in_map_iff in E. destruct E as (y & Hy & Hin). exists y. split; [|exact Hin].
        destruct (String.eqb_spec (r_fp y) (r_fp r)); congruence.
      * exists x. split; [|exact Hi]. destruct (String.eqb_spec (r_fp x) (r_fp r)); congruence.
  - apply memS_not_in in E. split.
    + rewrite map_app. cbn. apply NoDup_app_iff. split; [exact Hn|]. split; [repeat constructor; intros []|].
      intros x Hx [<-|[]]. contradiction.
    + intros x. rewrite in_app_iff. cbn. split.
      * intros [H|[<-|[]]]; [|auto]. right. split; [exact H|]. intros Hc. apply E. rewrite <- Hc. apply in_map, H.
      * intros [->|[H _]]; auto.
Qed.

Lemma purge_dataset_correct {T} (table matching : list (row T)) uri :
  NoDup (map r_fp table) ->
  (forall r, In r matching <-> In r table /\ r_uri r = uri) ->
  forall r, In r (fst (purge_dataset table matching)) <-> In r table /\ r_uri r <> uri.
Proof.
  intros Hn Hm r. unfold purge_dataset. cbn. rewrite delete_fold, filter_In, negb_true_iff, memS_not_in.
  rewrite in_map_iff. split.
  - intros [Hr Hk]. split; [exact Hr|]. intros Hu. apply Hk. exists r. split; [reflexivity|]. apply Hm. auto.
  - intros [Hr Hu]. split; [exact Hr|]. intros (q & Hq & Hqm). apply Hm in Hqm. destruct Hqm as [Hqt Hqu].
    assert (q = r) as -> by (eapply fp_inj; eauto). contradiction.
Qed.

(* --------------------------------------------------------------------------- download_all *)
Definition kind (o : one) : nat := match o with Done => 0 | Cached => 1 | MissingExtra _ => 2 | Broke _ => 3 end%nat.
Definition of_kind (outcome : string -> one) (n : nat) (k : string) : bool := Nat.eqb (kind (outcome k)) n.

Lemma append_to_in k v d : forall x y,
  (exists l, In (x, l) (append_to k v d) /\ In y l) <->
  (exists l, In (x, l) d /\ In y l) \/ (x = k /\ y = v).
Proof.
  induction d as [|[k' l'] r IH]; intros x y; cbn [append_to].
  - split.
    + intros (l & [[= -> <-]|[]] & [<-|[]]). auto.
    + intros [(l & [] & _)|[-> ->]]. exists [v]. cbn; auto.
  - destruct (String.eqb_spec k k') as [->|Hne].
    + split.
      * intros (l & [[= -> <-]|H] & Hy).
        -- apply in_app_or in Hy. destruct Hy as [Hy|[<-|[]]]; [left; exists l'; cbn; auto|auto].
        -- left. exists l. cbn; auto.
      * intros [(l & [[= -> ->]|H] & Hy)|[-> ->]].
        -- exists (l ++ [v]). split; [left; reflexivity|]. apply in_or_app; auto.
        -- exists l. split; [right; exact H|exact Hy].
        -- exists (l' ++ [v]). split; [left; reflexivity|]. apply in_or_app; right; left; reflexivity.
    + split.
      * intros (l & [[= -> <-]|H] & Hy).
        -- left. exists l'. cbn; auto.
        -- destruct (proj1 (IH x y)) as [(l0 & H0 & H0')|H0]; [exists l; auto| |auto].
           left. exists l0. cbn; auto.
      * intros [(l & [[= -> ->]|H] & Hy)|H].
        -- exists l. cbn; auto.
        -- destruct (proj2 (IH x y)) as (l0 & H0 & H0'); [left; exists l; auto|]. exists l0. cbn; auto.
        -- destruct (proj2 (IH x y)) as (l0 & H0 & H0'); [right; exact H|]. exists l0. cbn; auto.
Qed.

Lemma loop_ok outcome ign : forall keys rep vis,
  (ign = true \/ forall k x, In k keys -> outcome k <> MissingExtra x) ->
  exists rep', download_loop outcome ign keys rep vis = (Ok rep', vis ++ keys) /\
    downloaded rep' = downloaded rep ++ filter (of_kind outcome 0) keys /\
    skipped_cached rep' = skipped_cached rep ++ filter (of_kind outcome 1) keys /\
    skipped_missing rep' = skipped_missing rep ++ filter (of_kind outcome 2) keys /\
    map fst (failed rep') = map fst (failed rep) ++ filter (of_kind outcome 3) keys /\
    (forall k m, In (k, m) (failed rep') <-> In (k, m) (failed rep) \/ (In k keys /\ outcome k = Broke m)) /\
    (forall x k, (exists l, In (x, l) (missing_extras rep') /\ In k l) <->
       (exists l, In (x, l) (missing_extras rep) /\ In k l) \/ (In k keys /\ outcome k = MissingExtra x)).
Proof.
  induction keys as [|k rest IH]; intros rep vis H.
  - exists rep. cbn. rewrite !app_nil_r. repeat split; auto; try tauto; intros [|[[] _]]; auto.
  - assert (H' : ign = true \/ forall k x, In k rest -> outcome k <> MissingExtra x).
    { destruct H as [H|H]; [auto|right]. intros; apply H; right; assumption. }
    cbn [download_loop].
    assert (Hbr : forall rep0, exists rep',
      download_loop outcome ign rest rep0 (vis ++ [k]) = (Ok rep', vis ++ k :: rest) /\
      downloaded rep' = downloaded rep0 ++ filter (of_kind outcome 0) rest /\
      skipped_cached rep' = skipped_cached rep0 ++ filter (of_kind outcome 1) rest /\
      skipped_missing rep' = skipped_missing rep0 ++ filter (of_kind outcome 2) rest /\
      map fst (failed rep') = map fst (failed rep0) ++ filter (of_kind outcome 3) rest /\
      (forall k m, In (k, m) (failed rep') <-> In (k, m) (failed rep0) \/ (In k rest /\ outcome k = Broke m)) /\
      (forall x k, (exists l, In (x, l) (missing_extras rep') /\ In k l) <->
         (exists l, In (x, l) (missing_extras rep0) /\ In k l) \/ (In k rest /\ outcome k = MissingExtra x))).
    { intros rep0. destruct (IH rep0 (vis ++ [k]) H') as (rep' & E & P). exists rep'.
      rewrite <- app_assoc in E. split; [exact E|exact P]. }
    destruct (outcome k) as [| |x|m] eqn:Eo.
    + edestruct Hbr as (rep' & E & P0 & P1 & P2 & P3 & P4 & P5). exists rep'. split; [exact E|].
      cbn in P0, P1, P2, P3, P4, P5. unfold of_kind. cbn [filter]. rewrite Eo. cbn [kind Nat.eqb].
      rewrite P0, P1, P2, P3, <- app_assoc. repeat (split; [reflexivity|]). split.
      * intros k0 m. rewrite P4. cbn. split; [tauto|]. intros [|[[<-|]]]; [tauto|congruence|tauto].
      * intros x k0. rewrite P5. cbn. split; [tauto|]. intros [|[[<-|]]]; [tauto|congruence|tauto].
    + edestruct Hbr as (rep' & E & P0 & P1 & P2 & P3 & P4 & P5). exists rep'. split; [exact E|].
      cbn in P0, P1, P2, P3, P4, P5. unfold of_kind. cbn [filter]. rewrite Eo. cbn [kind Nat.eqb].
      rewrite P0, P1, P2, P3, <- app_assoc. repeat (split; [reflexivity|]). split.
      * intros k0 m. rewrite P4. cbn. split; [tauto|]. intros [|[[<-|]]]; [tauto|congruence|tauto].
      * intros x k0. rewrite P5. cbn. split; [tauto|]. intros [|[[<-|]]]; [tauto|congruence|tauto].
    + assert (Hi : ign = true).
      { destruct H as [H|H]; [exact H|]. exfalso. apply (H k x); [left; reflexivity|exact Eo]. }
      rewrite Hi in *.
      edestruct Hbr as (rep' & E & P0 & P1 & P2 & P3 & P4 & P5). exists rep'. split; [exact E|].
      cbn in P0, P1, P2, P3, P4, P5. unfold of_kind. cbn [filter]. rewrite Eo. cbn [kind Nat.eqb].
      rewrite P0, P1, P2, P3, <- app_assoc. repeat (split; [reflexivity|]). split.
      * intros k0 m. rewrite P4. cbn. split; [tauto|]. intros [|[[<-|]]]; [tauto|congruence|tauto].
      * intros x0 k0. rewrite P5, append_to_in. cbn. split.
        -- intros [[?|[-> ->]]|[? ?]]; auto.
        -- intros [?|[[<-|?] ?]]; auto. left. right. split; congruence.
    + edestruct Hbr as (rep' & E & P0 & P1 & P2 & P3 & P4 & P5). exists rep'. split; [exact E|].
      cbn in P0, P1, P2, P3, P4, P5. unfold of_kind. cbn [filter]. rewrite Eo. cbn [kind Nat.eqb].
      rewrite P0, P1, P2, P3, map_app, <- app_assoc. repeat (split; [reflexivity|]). split.
      * intros k0 m0. rewrite P4, in_app_iff. cbn. split.
        -- intros [[?|[[= -> ->]|[]]]|[? ?]]; auto.
        -- intros [?|[[<-|?] ?]]; auto. left. right. left. congruence.
      * intros x k0. rewrite P5. cbn. split; [tauto|]. intros [|[[<-|]]]; [tauto|congruence|tauto].
Qed.

Lemma loop_abort outcome : forall before k x rest rep vis,
  (forall q y, In q before -> outcome q <> MissingExtra y) -> outcome k = MissingExtra x ->
  download_loop outcome false (before ++ k :: rest) rep vis =
  (Err OptionalDependencyError, vis ++ before ++ [k]).
Proof.
  induction before as [|q b IH]; intros k x rest rep vis Hb Hk; cbn.
  - rewrite Hk. reflexivity.
  - assert (Hb' : forall q0 y, In q0 b -> outcome q0 <> MissingExtra y) by (intros; apply Hb; right; assumption).
    destruct (outcome q) as [| |y|m] eqn:Eq.
    + rewrite (IH k x) by assumption. rewrite <- app_assoc. reflexivity.
    + rewrite (IH k x) by assumption. rewrite <- app_assoc. reflexivity.
    + exfalso. apply (Hb q y); [left; reflexivity|exact Eq].
    + rewrite (IH k x) by assumption. rewrite <- app_assoc. reflexivity.
Qed.

Lemma partition4 outcome keys :
  Permutation keys (filter (of_kind outcome 0) keys ++ filter (of_kind outcome 1) keys ++
                    filter (of_kind outcome 2) keys ++ filter (of_kind outcome 3) keys).
Proof.
  induction keys as [|k r IH]; [constructor|]. cbn [filter].
  assert (Hk : forall n, of_kind outcome n k = Nat.eqb (kind (outcome k)) n) by reflexivity.
  rewrite !Hk. clear Hk.
  set (a := filter (of_kind outcome 0) r) in *. set (b := filter (of_kind outcome 1) r) in *.
  set (c := filter (of_kind outcome 2) r) in *. set (d := filter (of_kind outcome 3) r) in *.
  apply (Permutation_cons (eq_refl k)) in IH.
  destruct (outcome k); cbn [kind Nat.eqb]; (etransitivity; [exact IH|]).
  - apply (Permutation_middle a (b ++ c ++ d)).
  - apply Permutation_refl.
  - rewrite (app_assoc a b), (app_assoc a b). apply (Permutation_middle (a ++ b) (c ++ d)).
  - rewrite !app_assoc. apply (Permutation_middle ((a ++ b) ++ c) d).
Qed.

Lemma select_ok sort catalog inc exc mods keys :
  (forall l, Permutation (sort l) l) ->
  select_keys sort catalog inc exc mods = Ok keys ->
  NoDup keys /\
  forall k, In k keys <->
    match inc with None => In k (map fst catalog) | Some l => In k l end /\
    match exc with None => True | Some e => ~ In k e end /\
    match mods with None | Some [] => True | Some ms => exists m, assoc k catalog = Some m /\ In m ms end.
Proof.
  intros Hsort. unfold select_keys.
  set (base := nodup string_dec (match inc with None => map fst catalog | Some l => l end)).
  set (sel := match exc with None => base | Some e => filter (fun k => negb (memS k e)) base end).
  assert (Hnd : NoDup sel).
  { unfold sel. destruct exc; [apply NoDup_filter|]; apply NoDup_nodup. }
  assert (Hin : forall k, In k sel <->
    match inc with None => In k (map fst catalog) | Some l => In k l end /\
    match exc with None => True | Some e => ~ In k e end).
  { intros k. unfold sel, base. destruct exc as [e|].
    - rewrite filter_In, nodup_In, negb_true_iff, memS_not_in. destruct inc; tauto.
    - rewrite nodup_In. destruct inc; tauto. }
  assert (Hplain : Ok (sort sel) = Ok keys -> NoDup keys /\ forall k, In k keys <-> In k sel).
  { intros [= <-]. split.
    - eapply Permutation_NoDup; [symmetry; apply Hsort|exact Hnd].
    - intros k. split; apply Permutation_in; [|symmetry]; apply Hsort. }
  destruct mods as [[|m ms]|].
  - intros E. destruct (Hplain E) as [H1 H2]. split; [exact H1|]. intros k. rewrite H2, Hin. tauto.
  - set (wanted := m :: ms). clearbody wanted. intros E.
    assert (Hgo : forall l acc,
      (fix go (l acc : list string) : result (list string) :=
         match l with
         | [] => Ok (sort (rev acc))
         | k :: r => match assoc k catalog with
                     | None => Err KeyError
                     | Some m => go r (if memS m wanted then k :: acc else acc)
                     end
         end) l acc = Ok keys ->
      Permutation keys (rev acc ++ filter (fun k => match assoc k catalog with
                                            | Some m => memS m wanted | None => false end) l)).
    { induction l as [|k r IH]; intros acc.
      - intros [= <-]. cbn. rewrite app_nil_r. apply Hsort.
      - cbn [filter]. destruct (assoc k catalog) as [x|]; [|discriminate]. intros Ek. apply IH in Ek.
        destruct (memS x wanted); [|exact Ek]. cbn in Ek. rewrite <- app_assoc in Ek. exact Ek. }
    apply Hgo in E. cbn in E. split.
    + eapply Permutation_NoDup; [symmetry; exact E|]. apply NoDup_filter, Hnd.
    + intros k. transitivity (In k (filter (fun k => match assoc k catalog with
                                            | Some m => memS m wanted | None => false end) sel)).
      { split; apply Permutation_in; [|symmetry]; exact E. }
      rewrite filter_In, Hin. destruct (assoc k catalog) as [x|].
      * rewrite memS_in. split.
        -- intros [[? ?] ?]. repeat split; auto. eauto.
        -- intros (? & ? & x' & [= <-] & ?). auto.
      * split; [intros [_ ?]; discriminate|]. intros (_ & _ & x' & ? & _). discriminate.
  - intros E. destruct (Hplain E) as [H1 H2]. split; [exact H1|]. intros k. rewrite H2, Hin. tauto.
Qed.
