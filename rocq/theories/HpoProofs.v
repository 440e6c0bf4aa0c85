From Coq Require Import String Ascii SpecFloat ZifyBool ZifyNat.
From Verif Require Import Prelude ListFacts FloatModel PyValue DecString HpoModel HpoSpec SampleServiceProofs.
Local Open Scope Z_scope.
Local Open Scope list_scope.

(* induction over nested values *)
Section Ind.
Variable P : pyval -> Prop.
Hypothesis Hl : forall l, Forall P l -> P (PList l).
Hypothesis Hd : forall d, Forall (fun kv => P (snd kv)) d -> P (PDict d).
Hypothesis Ho : forall v, (forall d, v <> PDict d) -> (forall l, v <> PList l) -> P v.
Fixpoint pyval_ind' (v : pyval) : P v :=
  match v with
  | PList l => Hl l ((fix go l := match l return Forall P l with [] => Forall_nil _ | x :: r => Forall_cons _ (pyval_ind' x) (go r) end) l)
  | PDict d => Hd d ((fix go d := match d return Forall (fun kv => P (snd kv)) d with
                                  | [] => Forall_nil _ | x :: r => Forall_cons _ (pyval_ind' (snd x)) (go r) end) d)
  | v => Ho v ltac:(discriminate) ltac:(discriminate)
  end.
End Ind.

(* ------------------------------------------------------------------ dictionaries *)
Lemma lookup_cons k v d k' : lookup ((k, v) :: d) k' = if String.eqb k k' then Some v else lookup d k'.
Proof. unfold lookup. cbn. destruct (String.eqb k k'); reflexivity. Qed.
Lemma lookup_nil k : lookup [] k = None. Proof. reflexivity. Qed.
Lemma lookup_dset d k v k' : lookup (dset d k v) k' = if String.eqb k k' then Some v else lookup d k'.
Proof.
  induction d as [|[a w] d IH]; cbn [dset].
  - rewrite lookup_cons. reflexivity.
  - destruct (String.eqb_spec a k) as [->|Hn]; rewrite !lookup_cons.
    + destruct (String.eqb k k'); reflexivity.
    + rewrite IH. destruct (String.eqb_spec a k') as [->|H]; [|reflexivity].
      destruct (String.eqb_spec k k'); [congruence|reflexivity].
Qed.
Lemma lookup_in d k v : lookup d k = Some v -> In (k, v) d.
Proof.
  induction d as [|[a w] d IH]; [discriminate|]. rewrite lookup_cons. destruct (String.eqb_spec a k) as [->|].
  - intros [= ->]. left. reflexivity.
  - intros H. right. apply IH, H.
Qed.
Lemma lookup_some_iff d k v : NoDup (map fst d) -> (lookup d k = Some v <-> In (k, v) d).
Proof.
  intros Hn. split; [apply lookup_in|]. induction d as [|[a w] d IH]; [intros []|]. inversion_clear Hn as [|? ? Hni Hnd].
  rewrite lookup_cons. intros [[= -> ->]|H]; [rewrite String.eqb_refl; reflexivity|].
  destruct (String.eqb_spec a k) as [->|]; [|apply IH; assumption].
  exfalso. apply Hni. apply (in_map fst) in H. exact H.
Qed.
Lemma lookup_none_iff d k : lookup d k = None <-> ~ In k (map fst d).
Proof.
  induction d as [|[a w] d IH]; [cbn; tauto|]. rewrite lookup_cons. cbn. destruct (String.eqb_spec a k) as [->|H].
  - split; [discriminate|]. intros H. exfalso. apply H. left. reflexivity.
  - rewrite IH. intuition congruence.
Qed.
Lemma dset_same (d : pydict) k v : lookup d k = Some v -> dset d k v = d.
Proof.
  induction d as [|[a w] d IH]; [discriminate|]. rewrite lookup_cons. cbn. destruct (String.eqb_spec a k) as [->|].
  - intros [= ->]. reflexivity.
  - intros H. rewrite IH by exact H. reflexivity.
Qed.
Lemma dset_new (d : pydict) k v : lookup d k = None -> dset d k v = d ++ [(k, v)].
Proof.
  induction d as [|[a w] d IH]; [reflexivity|]. rewrite lookup_cons. cbn. destruct (String.eqb_spec a k) as [->|]; [discriminate|].
  intros H. rewrite IH by exact H. reflexivity.
Qed.
Lemma dset_keys {A} (d : list (string * A)) k v : forall x, In x (map fst (dset d k v)) <-> x = k \/ In x (map fst d).
Proof.
  induction d as [|[a w] d IH]; intros x; cbn; [intuition congruence|]. destruct (String.eqb_spec a k) as [->|]; cbn.
  - intuition congruence.
  - rewrite IH. intuition congruence.
Qed.
Lemma dset_nodup {A} (d : list (string * A)) k v : NoDup (map fst d) -> NoDup (map fst (dset d k v)).
Proof.
  induction d as [|[a w] d IH]; intros H; cbn.
  - constructor; [intros []|constructor].
  - inversion_clear H as [|? ? Hni Hnd]. destruct (String.eqb_spec a k) as [->|Hne]; cbn; constructor; auto.
    rewrite dset_keys. intuition congruence.
Qed.

(* ------------------------------------------------------------------ deep_merge *)
Lemma merge_into_dict b p : merge_into (Some (PDict b)) (PDict p) = PDict (deep_merge b p).
Proof.
  cbn [merge_into]. apply f_equal. revert b. induction p as [|[k w] p IH]; intros b; [reflexivity|]. cbn [deep_merge]. apply IH.
Qed.
Lemma merge_into_none v : merge_into None v = v. Proof. destruct v; reflexivity. Qed.
Lemma merge_into_other o v : (forall b, o <> Some (PDict b)) \/ is_dict v = false -> merge_into o v = v.
Proof. destruct o as [[]|], v; cbn; intros [H|H]; try reflexivity; try discriminate. exfalso. eapply H. reflexivity. Qed.

Lemma lookup_merge patch : NoDup (map fst patch) -> forall base k,
  lookup (deep_merge base patch) k =
  match lookup patch k with None => lookup base k | Some w => Some (merge_into (lookup base k) w) end.
Proof.
  induction patch as [|[a w] p IH]; intros Hn base k; [reflexivity|]. inversion_clear Hn as [|? ? Hni Hnd].
  cbn [deep_merge]. rewrite (IH Hnd), lookup_dset, lookup_cons. destruct (String.eqb_spec a k) as [->|]; [|reflexivity].
  assert (E : lookup p k = None) by (apply lookup_none_iff, Hni). rewrite E. reflexivity.
Qed.

Lemma uk_child d k v : unique_keys (PDict d) -> lookup d k = Some v -> unique_keys v.
Proof.
  intros H Hl. inversion H as [d' Hn Hf E| |v' H1 H2]; [|exfalso; apply (H1 d); reflexivity].
  subst. rewrite Forall_forall in Hf. apply (Hf (k, v)). apply lookup_in, Hl.
Qed.
Lemma uk_nodup d : unique_keys (PDict d) -> NoDup (map fst d).
Proof. intros H. inversion H as [d' Hn Hf E| |v' H1 H2]; [exact Hn|exfalso; apply (H1 d); reflexivity]. Qed.
Lemma uk_items d : unique_keys (PDict d) -> Forall (fun kv => unique_keys (snd kv)) d.
Proof. intros H. inversion H as [d' Hn Hf E| |v' H1 H2]; [exact Hf|exfalso; apply (H1 d); reflexivity]. Qed.

Lemma get_path_nondict v k r : is_dict v = false -> get_path v (k :: r) = None.
Proof. destruct v; cbn; congruence. Qed.

Lemma untouched_cons patch k r : untouched patch (k :: r) ->
  match lookup patch k with None => True | Some (PDict q) => untouched q r | Some _ => False end.
Proof.
  intros H. destruct (lookup patch k) as [w|] eqn:E; [|exact I]. pose proof (H [k] r eq_refl) as H1.
  cbn [get_path] in H1. rewrite E in H1. destruct w; try exact H1.
  intros q t Et. specialize (H (k :: q) t). cbn [app get_path] in H. rewrite E in H. apply H. rewrite Et. reflexivity.
Qed.
Lemma untouched_none patch k r : lookup patch k = None -> untouched patch (k :: r).
Proof.
  intros E q t Et. destruct q as [|k' q]; cbn; [|injection Et as <- _; rewrite E; exact I]. cbn in Et. subst t. discriminate.
Qed.
Lemma untouched_dict patch k q r : lookup patch k = Some (PDict q) -> untouched q r -> untouched patch (k :: r).
Proof.
  intros E H a t Et. destruct a as [|k' a]; cbn; [cbn in Et; subst t; discriminate|].
  injection Et as <- Et. rewrite E. apply H, Et.
Qed.
Lemma untouched_nil patch : ~ untouched patch [].
Proof. intros H. apply (H [] [] eq_refl). reflexivity. Qed.

(* scalars after a merge *)
Lemma merge_scalar p : forall base patch v, unique_keys (PDict patch) -> is_dict v = false ->
  (get_path (PDict (deep_merge base patch)) p = Some v <->
   get_path (PDict patch) p = Some v \/ (get_path (PDict base) p = Some v /\ untouched patch p)).
Proof.
  induction p as [|k r IH]; intros base patch v Hu Hv; cbn [get_path].
  - split; [intros [= <-]; discriminate|]. intros [[= <-]|[[= <-] _]]; discriminate.
  - rewrite lookup_merge by (apply uk_nodup, Hu). destruct (lookup patch k) as [w|] eqn:E.
    + pose proof (uk_child _ _ _ Hu E) as Hw.
      destruct w as [| | | | | |q].
      1-6: rewrite merge_into_other by (right; reflexivity); split;
           [auto|intros [H|[_ H]]; [exact H|apply untouched_cons in H; rewrite E in H; destruct H]].
      destruct (lookup base k) as [x|] eqn:Eb; [destruct x as [| | | | | |b]|].
      7: { rewrite merge_into_dict, (IH b q v Hw Hv). split; intros [H|[H1 H2]]; auto; right; split; auto.
           - eapply untouched_dict; eassumption.
           - apply untouched_cons in H2. rewrite E in H2. exact H2. }
      all: rewrite merge_into_other by (left; discriminate); split; [auto|]; intros [H|[H1 H2]]; [exact H|].
      all: exfalso; first [discriminate H1|apply untouched_cons in H2; rewrite E in H2;
           destruct r as [|k' r]; [apply (untouched_nil _ H2)|cbn in H1; discriminate]].
    + split; [intros H; right; split; [exact H|apply untouched_none, E]|]. intros [H|[H _]]; [discriminate|exact H].
Qed.
(* mappings after a merge *)
Lemma merge_mapping p : forall base patch, unique_keys (PDict patch) ->
  ((exists d, get_path (PDict (deep_merge base patch)) p = Some (PDict d)) <->
   (exists d, get_path (PDict patch) p = Some (PDict d)) \/
   ((exists d, get_path (PDict base) p = Some (PDict d)) /\ untouched patch p)).
Proof.
  induction p as [|k r IH]; intros base patch Hu; cbn [get_path].
  - split; eauto.
  - rewrite lookup_merge by (apply uk_nodup, Hu). destruct (lookup patch k) as [w|] eqn:E.
    + pose proof (uk_child _ _ _ Hu E) as Hw.
      destruct w as [| | | | | |q].
      1-6: rewrite merge_into_other by (right; reflexivity); split;
           [auto|intros [H|[_ H]]; [exact H|apply untouched_cons in H; rewrite E in H; destruct H]].
      destruct (lookup base k) as [x|] eqn:Eb; [destruct x as [| | | | | |b]|].
      7: { rewrite merge_into_dict, (IH b q Hw). split; intros [H|[H1 H2]]; auto; right; split; auto.
           - eapply untouched_dict; eassumption.
           - apply untouched_cons in H2. rewrite E in H2. exact H2. }
      all: rewrite merge_into_other by (left; discriminate); split; [auto|]; intros [H|[[d H1] H2]]; [exact H|].
      all: exfalso; first [discriminate H1|apply untouched_cons in H2; rewrite E in H2;
           destruct r as [|k' r]; [apply (untouched_nil _ H2)|cbn in H1; discriminate]].
    + split; [intros H; right; split; [exact H|apply untouched_none, E]|]. intros [[d H]|[H _]]; [discriminate|exact H].
Qed.

Lemma deep_merge_fix m p : (forall k w, In (k, w) p -> exists x, lookup m k = Some x /\ merge_into (Some x) w = x) ->
  deep_merge m p = m.
Proof.
  induction p as [|[k w] p IH]; intros H; [reflexivity|]. cbn [deep_merge].
  destruct (H k w (or_introl eq_refl)) as (x & E & Ex). rewrite E, Ex, dset_same by exact E.
  apply IH. intros k' w' H'. apply H. right. exact H'.
Qed.
Lemma merge_into_idem v : unique_keys v -> forall o, merge_into (Some (merge_into o v)) v = merge_into o v.
Proof.
  induction v as [l _|d IH|v H1 H2] using pyval_ind'; intros Hu o.
  - rewrite (merge_into_other o) by (right; reflexivity). apply merge_into_other. right. reflexivity.
  - pose proof (uk_nodup _ Hu) as Hn. pose proof (uk_items _ Hu) as Hc. rewrite Forall_forall in IH, Hc.
    assert (Hself : deep_merge d d = d).
    { apply deep_merge_fix. intros k w H. exists w. split; [apply lookup_some_iff; assumption|].
      specialize (IH (k, w) H (Hc (k, w) H) None). rewrite merge_into_none in IH. exact IH. }
    destruct (match o with Some (PDict b) => Some b | _ => None end) as [b|] eqn:Eo.
    + assert (o = Some (PDict b)) by (destruct o as [[]|]; congruence). subst o.
      rewrite !merge_into_dict. f_equal. apply deep_merge_fix. intros k w H.
      rewrite lookup_merge by exact Hn. assert (El : lookup d k = Some w) by (apply lookup_some_iff; assumption).
      rewrite El. eexists. split; [reflexivity|]. apply (IH (k, w) H (Hc (k, w) H)).
    + rewrite (merge_into_other o) by (left; intros b ->; discriminate). rewrite merge_into_dict, Hself. reflexivity.
  - assert (is_dict v = false) by (destruct v as [| | | | | |d]; try reflexivity; exfalso; apply (H1 d); reflexivity).
    rewrite (merge_into_other o) by (right; assumption). apply merge_into_other. right. assumption.
Qed.
Lemma deep_merge_idem base patch : unique_keys (PDict patch) ->
  deep_merge (deep_merge base patch) patch = deep_merge base patch.
Proof.
  intros Hu. pose proof (merge_into_idem (PDict patch) Hu (Some (PDict base))) as H. rewrite !merge_into_dict in H. congruence.
Qed.
Lemma deep_merge_empty_base p : NoDup (map fst p) -> deep_merge [] p = p.
Proof.
  intros Hn. assert (G : forall pre, NoDup (map fst (pre ++ p)) -> deep_merge pre p = pre ++ p); [|apply (G []); exact Hn].
  clear Hn. induction p as [|[k w] p IH]; intros pre Hn; [rewrite app_nil_r; reflexivity|]. cbn [deep_merge].
  assert (El : lookup pre k = None).
  { apply lookup_none_iff. rewrite map_app in Hn. cbn in Hn. apply NoDup_remove_2 in Hn. intros H. apply Hn, in_or_app. auto. }
  rewrite El, merge_into_none, dset_new by exact El. rewrite IH, <- app_assoc; [reflexivity|].
  rewrite <- app_assoc. exact Hn.
Qed.

(* ------------------------------------------------------------------ flatten_patch *)
Lemma assoc_or_map {A} (F : string -> pyval -> A) d k dflt :
  assoc_or k (map (fun kv => (fst kv, F (fst kv) (snd kv))) d) dflt =
  match lookup d k with Some w => F k w | None => dflt end.
Proof.
  induction d as [|[a w] d IH]; [reflexivity|]. cbn [map assoc_or fst snd]. rewrite lookup_cons.
  destruct (String.eqb_spec a k) as [->|]; [reflexivity|exact IH].
Qed.

Section Flatten.
Variable sort : list string -> list string.
Hypothesis Hsort : sorts sort.
Notation entries := (entries sort).

Lemma entries_dict x d : entries (PDict (x :: d)) =
  flat_map (fun k => match lookup (x :: d) k with Some w => map (fun e => (k :: fst e, snd e)) (entries w) | None => [] end)
           (sort (map fst (x :: d))).
Proof.
  cbn [HpoModel.entries]. apply flat_map_ext. intros k.
  set (subs := (fix go (d : list (string * pyval)) := _) d).
  assert (E : subs = map (fun kv => (fst kv, (fun k w => map (fun e : list string * pyval => (k :: fst e, snd e)) (entries w)) (fst kv) (snd kv))) d).
  { unfold subs. clear. induction d as [|[k w] d IH]; [reflexivity|]. cbn [map fst snd]. f_equal. exact IH. }
  destruct x as [a w]. rewrite E.
  exact (assoc_or_map (fun k w => map (fun e : list string * pyval => (k :: fst e, snd e)) (entries w)) ((a, w) :: d) k []).
Qed.
Lemma flat_leaf_other v : (forall d, v <> PDict d) -> flat_leaf v.
Proof. intros H x d E. apply (H (x :: d)), E. Qed.
Lemma entries_flat v : flat_leaf v -> entries v = [([], v)].
Proof. intros H. destruct v as [| | | | | |[|x d]]; try reflexivity. exfalso. eapply H. reflexivity. Qed.

Lemma entries_spec v : unique_keys v -> forall p x, In (p, x) (entries v) <-> get_path v p = Some x /\ flat_leaf x.
Proof.
  induction v as [l _|d IH|v H1 H2] using pyval_ind'; intros Hu p x.
  1,3: rewrite entries_flat by (apply flat_leaf_other; try discriminate; assumption); cbn; split;
       [intros [[= <- <-]|[]]; split; [reflexivity|apply flat_leaf_other; try discriminate; assumption]|];
       destruct p as [|k r]; cbn; [intros [[= ->] _]; auto|].
  - intros [H _]. discriminate.
  - intros [H _]. destruct v; try discriminate. exfalso. eapply H1. reflexivity.
  - destruct d as [|y d].
    { cbn. split; [intros [[= <- <-]|[]]; split; [reflexivity|discriminate]|].
      destruct p; cbn; [intros [[= <-] _]; auto|intros [H _]; discriminate]. }
    rewrite entries_dict. rewrite in_flat_map. pose proof (uk_nodup _ Hu) as Hn.
    rewrite Forall_forall in IH. split.
    + intros (k & Hk & Hin). destruct (lookup (y :: d) k) as [w|] eqn:E; [|destruct Hin].
      apply in_map_iff in Hin. destruct Hin as ([p' x'] & [= <- <-] & Hin). cbn [fst snd].
      cbn [get_path]. rewrite E. apply (IH (k, w) (lookup_in _ _ _ E) (uk_child _ _ _ Hu E)). exact Hin.
    + intros [Hg Hf]. destruct p as [|k r]; [cbn in Hg; injection Hg as <-; exfalso; eapply Hf; reflexivity|].
      cbn [get_path] in Hg. destruct (lookup (y :: d) k) as [w|] eqn:E; [|discriminate].
      exists k. split.
      * eapply Permutation_in; [symmetry; apply Hsort|]. apply lookup_in in E. apply (in_map fst) in E. exact E.
      * rewrite E. apply in_map_iff. exists (r, x). split; [reflexivity|].
        apply (IH (k, w) (lookup_in _ _ _ E) (uk_child _ _ _ Hu E)). auto.
Qed.

Lemma nodup_flat_map {A B} (f : A -> list B) l : NoDup l -> (forall a, In a l -> NoDup (f a)) ->
  (forall a b x, In a l -> In b l -> In x (f a) -> In x (f b) -> a = b) -> NoDup (flat_map f l).
Proof.
  induction l as [|a l IH]; intros Hn Hf Hd; [constructor|]. inversion_clear Hn as [|? ? Hni Hnd].
  cbn. apply NoDup_app_iff. split; [apply Hf; left; reflexivity|]. split.
  - apply IH; [exact Hnd|intros; apply Hf; right; assumption|]. intros b c x Hb Hc. apply Hd; right; assumption.
  - intros x Hx Hx'. apply in_flat_map in Hx'. destruct Hx' as (b & Hb & Hxb).
    assert (a = b) by (apply (Hd a b x); [left; reflexivity|right; exact Hb|exact Hx|exact Hxb]). subst. contradiction.
Qed.
Lemma entries_nodup v : unique_keys v -> NoDup (map fst (entries v)).
Proof.
  induction v as [l _|d IH|v H1 H2] using pyval_ind'; intros Hu.
  1,3: rewrite entries_flat by (apply flat_leaf_other; try discriminate; assumption); cbn; constructor; [intros []|constructor].
  destruct d as [|y d]; [cbn; constructor; [intros []|constructor]|].
  rewrite entries_dict, flat_map_concat_map, concat_map, map_map, <- flat_map_concat_map.
  rewrite Forall_forall in IH. apply nodup_flat_map.
  - eapply Permutation_NoDup; [symmetry; apply Hsort|]. apply uk_nodup, Hu.
  - intros k _. destruct (lookup (y :: d) k) as [w|] eqn:E; [|constructor]. rewrite map_map. cbn [fst].
    replace (map (fun e : list string * pyval => k :: fst e) (entries w)) with (map (cons k) (map fst (entries w))) by apply map_map.
    apply FinFun.Injective_map_NoDup; [intros a b [= ->]; reflexivity|].
    apply (IH (k, w) (lookup_in _ _ _ E) (uk_child _ _ _ Hu E)).
  - intros a b x _ _ Ha Hb. destruct (lookup (y :: d) a), (lookup (y :: d) b); try contradiction.
    rewrite map_map in Ha, Hb. apply in_map_iff in Ha, Hb. destruct Ha as (? & <- & _), Hb as (? & E & _).
    cbn in E. congruence.
Qed.
Lemma entries_nonempty_path d : forall p x, In (p, x) (entries (PDict d)) -> d <> [] -> p <> [].
Proof.
  intros p x H Hd. destruct d as [|y d]; [congruence|]. rewrite entries_dict in H. apply in_flat_map in H.
  destruct H as (k & _ & H). destruct (lookup (y :: d) k); [|destruct H]. apply in_map_iff in H.
  destruct H as (e & [= <- _] & _). discriminate.
Qed.

(* joined names *)
Definition dots (p : list string) : Prop := Forall (fun k => count_char "."%char k = 0%nat) p.
Lemma join_inj p : forall q, p <> [] -> q <> [] -> dots p -> dots q -> join p = join q -> p = q.
Proof.
  unfold join. induction p as [|x p IH]; intros [|y q] Hp Hq Dp Dq E; try congruence.
  inversion_clear Dp as [|? ? Dx Dp']. inversion_clear Dq as [|? ? Dy Dq'].
  destruct p as [|x' p], q as [|y' q].
  - cbn in E. congruence.
  - exfalso. change (x = (y ++ "." ++ String.concat "." (y' :: q))%string) in E.
    apply (f_equal (count_char "."%char)) in E. rewrite !count_app in E. cbn [count_char Ascii.eqb Bool.eqb] in E. lia.
  - exfalso. change ((x ++ "." ++ String.concat "." (x' :: p))%string = y) in E.
    apply (f_equal (count_char "."%char)) in E. rewrite !count_app in E. cbn [count_char Ascii.eqb Bool.eqb] in E. lia.
  - change ((x ++ String "." (String.concat "." (x' :: p)))%string = (y ++ String "." (String.concat "." (y' :: q)))%string) in E.
    destruct (split_unique _ _ _ _ _ Dx Dy E) as [-> E']. f_equal. apply IH; try assumption; discriminate.
Qed.
Lemma df_child d k v : dot_free (PDict d) -> lookup d k = Some v -> count_char "."%char k = 0%nat /\ dot_free v.
Proof.
  intros H Hl. inversion H as [d' Hf E|v' Hv]; [|discriminate]. rewrite Forall_forall in Hf.
  apply (Hf (k, v)), lookup_in, Hl.
Qed.
Lemma get_path_dots p : forall v x, dot_free v -> get_path v p = Some x -> dots p.
Proof.
  induction p as [|k r IH]; intros v x Hd Hg; [constructor|]. destruct v as [| | | | | |d]; try discriminate. cbn in Hg.
  destruct (lookup d k) as [w|] eqn:E; [|discriminate]. destruct (df_child _ _ _ Hd E) as [H1 H2].
  constructor; [exact H1|]. apply (IH w x H2 Hg).
Qed.

Lemma fold_dset_lookup (es : list (list string * pyval)) : forall out s v,
  NoDup (map (fun e => join (fst e)) es) -> (forall e, In e es -> lookup out (join (fst e)) = None) ->
  (lookup (fold_left (fun out e => dset out (join (fst e)) (snd e)) es out) s = Some v <->
   (exists p, In (p, v) es /\ join p = s) \/ lookup out s = Some v).
Proof.
  induction es as [|[p x] es IH]; intros out s v Hn Ho; cbn [fold_left].
  - split; [auto|]. intros [(p & [] & _)|H]; exact H.
  - inversion_clear Hn as [|? ? Hni Hnd]. cbn [fst snd]. rewrite IH; [|exact Hnd|].
    + rewrite lookup_dset. destruct (String.eqb_spec (join p) s) as [<-|Hs].
      * split.
        -- intros [(q & Hq & Eq)|[= ->]]; left; [exists q; split; [right; exact Hq|exact Eq]|exists p; split; [left|]; reflexivity].
        -- intros [(q & [[= <- <-]|Hq] & Eq)|H]; [right; reflexivity|left; exists q; auto|].
           specialize (Ho (p, x) (or_introl eq_refl)). cbn [fst] in Ho. congruence.
      * split.
        -- intros [(q & Hq & Eq)|H]; [left; exists q; split; [right; exact Hq|exact Eq]|auto].
        -- intros [(q & [E0|Hq] & Eq)|H]; [exfalso; apply Hs; congruence|left; exists q; auto|auto].
    + intros e He. rewrite lookup_dset. destruct (String.eqb_spec (join p) (join (fst e))) as [E|_].
      * exfalso. apply Hni. cbn. rewrite E. apply (in_map (fun e => join (fst e))) in He. exact He.
      * apply Ho. right. exact He.
Qed.
Lemma fold_dset_nodup (es : list (list string * pyval)) : forall out, NoDup (map fst out) ->
  NoDup (map fst (fold_left (fun out e => dset out (join (fst e)) (snd e)) es out)).
Proof. induction es as [|e es IH]; intros out H; cbn; [exact H|]. apply IH, dset_nodup, H. Qed.

Lemma flatten_spec patch s v : unique_keys (PDict patch) -> dot_free (PDict patch) ->
  (lookup (flatten_patch sort patch) s = Some v <->
   exists p, p <> [] /\ join p = s /\ get_path (PDict patch) p = Some v /\ flat_leaf v).
Proof.
  intros Hu Hd. unfold flatten_patch. destruct patch as [|y d].
  - split; [discriminate|]. intros (p & Hp & _ & Hg & _). destruct p; [congruence|discriminate].
  - rewrite fold_dset_lookup.
    + split.
      * intros [(p & Hp & E)|H]; [|discriminate]. exists p. split; [eapply entries_nonempty_path; [exact Hp|discriminate]|].
        split; [exact E|]. apply entries_spec; assumption.
      * intros (p & Hp & E & Hg). left. exists p. split; [|exact E]. apply entries_spec; assumption.
    + pose proof (entries_nodup _ Hu) as Hn.
      assert (Hin : forall e, In e (entries (PDict (y :: d))) -> fst e <> [] /\ dots (fst e)).
      { intros [p x] H. cbn [fst]. split; [eapply entries_nonempty_path; [exact H|discriminate]|].
        apply entries_spec in H; [|exact Hu]. eapply get_path_dots; [exact Hd|apply H]. }
      revert Hn Hin. generalize (entries (PDict (y :: d))). intros es. induction es as [|e es IH]; intros Hn Hin; [constructor|].
      cbn [map] in *. inversion_clear Hn as [|? ? Hni Hnd]. constructor.
      * intros H. apply Hni. apply in_map_iff in H. destruct H as (e' & E & He').
        apply join_inj in E; [rewrite <- E; apply in_map, He'|..]; try (apply Hin; right; assumption); apply Hin; left; reflexivity.
      * apply IH; [exact Hnd|]. intros e' He'. apply Hin. right. exact He'.
    + intros e _. reflexivity.
Qed.
Lemma flatten_nodup patch : NoDup (map fst (flatten_patch sort patch)).
Proof. unfold flatten_patch. destruct patch; [constructor|]. apply fold_dset_nodup. constructor. Qed.
End Flatten.

(* ------------------------------------------------------------------ paths *)
Lemma get_path_app p q v : get_path v (p ++ q) = match get_path v p with Some w => get_path w q | None => None end.
Proof.
  revert v. induction p as [|k p IH]; intros v; [reflexivity|]. cbn. destruct v; try reflexivity.
  destruct (lookup d k); [apply IH|reflexivity].
Qed.
Lemma prefix_dec (p q : list string) : {exists r, q = p ++ r} + {~ exists r, q = p ++ r}.
Proof.
  revert q. induction p as [|k p IH]; intros q; [left; exists q; reflexivity|].
  destruct q as [|k' q]; [right; intros [r H]; discriminate|]. destruct (string_dec k k') as [<-|Hn].
  - destruct (IH q) as [H|H]; [left; destruct H as [r ->]; exists r; reflexivity|]. right. intros [r E]. apply H. exists r.
    cbn in E. congruence.
  - right. intros [r E]. cbn in E. congruence.
Qed.
Lemma comparable_dec p q : {comparable p q} + {~ comparable p q}.
Proof. unfold comparable. destruct (prefix_dec p q), (prefix_dec q p); auto; right; intros [H|H]; contradiction. Qed.
Lemma comparable_sym p q : comparable p q -> comparable q p.
Proof. unfold comparable. tauto. Qed.
Lemma comparable_cons k p q : comparable (k :: p) (k :: q) <-> comparable p q.
Proof.
  unfold comparable. split; intros [[r H]|[r H]]; [left|right|left|right]; exists r; cbn in *; congruence.
Qed.

(* the value at every strict prefix of p is a mapping or absent *)
Definition open_path (d : pydict) (p : list string) : Prop :=
  forall q r, p = q ++ r -> r <> [] ->
    match get_path (PDict d) q with None => True | Some v => is_dict v = true end.
Lemma open_nil p : open_path [] p.
Proof. intros [|k q] r _ _; cbn; [reflexivity|exact I]. Qed.

Lemma assign_spec p : forall d v, p <> [] -> open_path d p ->
  exists d', assign d p v = Ok d' /\ get_path (PDict d') p = Some v /\
    (forall q, ~ comparable p q -> get_path (PDict d') q = get_path (PDict d) q).
Proof.
  induction p as [|k p IH]; intros d v Hp Ho; [congruence|]. destruct p as [|k2 p].
  - exists (dset d k v). split; [reflexivity|]. cbn [get_path]. rewrite lookup_dset, String.eqb_refl. split; [reflexivity|].
    intros [|k' q] Hq; [exfalso; apply Hq; right; exists [k]; reflexivity|]. cbn [get_path]. rewrite lookup_dset.
    destruct (String.eqb_spec k k') as [->|]; [|reflexivity]. exfalso. apply Hq. left. exists q. reflexivity.
  - assert (Hx : exists b, (lookup d k = None /\ b = [] \/ lookup d k = Some (PDict b))).
    { pose proof (Ho [k] (k2 :: p) eq_refl ltac:(discriminate)) as H. cbn in H.
      destruct (lookup d k) as [w|]; [|eauto]. destruct w as [| | | | | |b]; try discriminate. eauto. }
    destruct Hx as [b Hb].
    assert (Hob : open_path b (k2 :: p)).
    { destruct Hb as [[_ ->]|Hb]; [apply open_nil|]. intros q r E Hr. specialize (Ho (k :: q) r).
      cbn [app get_path] in Ho. rewrite Hb in Ho. apply Ho; [rewrite E; reflexivity|exact Hr]. }
    destruct (IH b v ltac:(discriminate) Hob) as (x & Ex & Hg & Hq). exists (dset d k (PDict x)).
    split; [|split].
    + change (assign d (k :: k2 :: p) v) with
        (match lookup d k with None => do x <- assign [] (k2 :: p) v; Ok (dset d k (PDict x))
         | Some (PDict b) => do x <- assign b (k2 :: p) v; Ok (dset d k (PDict x)) | Some _ => Err TypeError end).
      destruct Hb as [[-> ->]| ->]; rewrite Ex; reflexivity.
    + change (get_path (PDict (dset d k (PDict x))) (k :: k2 :: p)) with
        (match lookup (dset d k (PDict x)) k with Some w => get_path w (k2 :: p) | None => None end).
      rewrite lookup_dset, String.eqb_refl. exact Hg.
    + intros [|k' q] Hc; [exfalso; apply Hc; right; eexists; reflexivity|].
      cbn [get_path]. rewrite lookup_dset. destruct (String.eqb_spec k k') as [<-|]; [|reflexivity].
      rewrite comparable_cons in Hc. rewrite (Hq q Hc).
      destruct Hb as [[-> ->]| ->]; [|reflexivity].
      destruct q; [exfalso; apply Hc; right; eexists; reflexivity|reflexivity].
Qed.

Definition separate (ps : list (list string)) : Prop :=
  forall p q, In p ps -> In q ps -> comparable p q -> p = q.

Lemma holds_open d pairs p : holds d pairs -> p <> [] -> (forall p' v, In (p', v) pairs -> ~ comparable p' p) -> open_path d p.
Proof.
  intros [H1 H2] Hp Hc q r E Hr. destruct q as [|k q]; [reflexivity|].
  destruct (get_path (PDict d) (k :: q)) as [w|] eqn:G; [|exact I].
  destruct (H2 (k :: q) w ltac:(discriminate) G) as (p' & v & Hin & [[t Et]|[t Et]]).
  - exfalso. apply (Hc p' v Hin). left. exists (t ++ r). rewrite E, Et, app_assoc. reflexivity.
  - destruct t as [|k' t].
    + exfalso. apply (Hc p' v Hin). left. exists r. rewrite E, Et, app_nil_r. reflexivity.
    + pose proof (H1 p' v Hin) as G'. rewrite Et, get_path_app, G in G'. destruct w; try discriminate. reflexivity.
Qed.
Lemma assign_holds d pairs p v : holds d pairs -> p <> [] -> (forall p' v', In (p', v') pairs -> ~ comparable p' p) ->
  exists d', assign d p v = Ok d' /\ holds d' ((p, v) :: pairs).
Proof.
  intros Hh Hp Hc. pose proof (holds_open _ _ _ Hh Hp Hc) as Ho. destruct (assign_spec p d v Hp Ho) as (d' & E & Hg & Hq).
  exists d'. split; [exact E|]. destruct Hh as [H1 H2]. split.
  - intros p' v' [[= <- <-]|Hin]; [exact Hg|]. rewrite Hq; [apply H1, Hin|].
    intros H. apply (Hc p' v' Hin), comparable_sym, H.
  - intros q w Hqn Hqw. destruct (comparable_dec p q) as [H|H].
    + exists p, v. split; [left; reflexivity|exact H].
    + rewrite Hq in Hqw by exact H. destruct (H2 q w Hqn Hqw) as (p' & v' & Hin & H'). exists p', v'. split; [right; exact Hin|exact H'].
Qed.
Lemma assign_all_holds ls : forall vs d pairs, List.length vs = List.length ls -> holds d pairs ->
  NoDup (map lf_path ls) -> separate (map lf_path ls ++ map fst pairs) ->
  (forall l, In l ls -> lf_path l <> [] /\ ~ In (lf_path l) (map fst pairs)) ->
  exists d', assign_all d ls vs = Ok d' /\ holds d' (rev (combine (map lf_path ls) vs) ++ pairs).
Proof.
  induction ls as [|l ls IH]; intros [|v vs] d pairs Hlen Hh Hn Hs Hp; try discriminate.
  - exists d. split; [reflexivity|exact Hh].
  - cbn [map] in *. inversion_clear Hn as [|? ? Hni Hnd]. cbn [assign_all].
    destruct (assign_holds d pairs (lf_path l) v Hh) as (d1 & E1 & H1).
    + apply Hp. left. reflexivity.
    + intros p' v' Hin Hc. apply (proj2 (Hp l (or_introl eq_refl))). apply (in_map fst) in Hin. cbn in Hin.
      rewrite (Hs (lf_path l) p'); [exact Hin|left; reflexivity|right; apply in_or_app; right; exact Hin|apply comparable_sym, Hc].
    + rewrite E1. cbn [bind]. destruct (IH vs d1 ((lf_path l, v) :: pairs)) as (d2 & E2 & H2).
      * injection Hlen as Hlen. exact Hlen.
      * exact H1.
      * exact Hnd.
      * intros p q Ha Hb. apply Hs.
        -- cbn in Ha. apply in_app_or in Ha. cbn in *. rewrite in_app_iff. tauto.
        -- cbn in Hb. apply in_app_or in Hb. cbn in *. rewrite in_app_iff. tauto.
      * intros l' Hl'. destruct (Hp l' (or_intror Hl')) as [Ha Hb]. split; [exact Ha|]. cbn. intros [H|H]; [|contradiction].
        apply Hni. rewrite H. apply in_map, Hl'.
      * exists d2. split; [exact E2|]. cbn [combine rev]. rewrite <- app_assoc. exact H2.
Qed.

(* ------------------------------------------------------------------ Space.from_dict *)
Definition param_of (l : leaf) : param :=
  match lf_dist l with Some d => Drawn d | None => Listed (match lf_values l with Some vs => vs | None => [] end) end.
Definition leaf_ok (l : leaf) : Prop := lf_values l = candidates (param_of l).

Section Space.
Variable sort : list string -> list string.
Hypothesis Hsort : sorts sort.
Variable o : Oracle.
Notation walk := (walk sort o).

Lemma walk_dict root x d : walk root (PDict (x :: d)) =
  if memS "dist" (keys (x :: d)) then (if root then Err HpoError else do lf <- dist_leaf o (x :: d); Ok [lf])
  else concat_keys (fun k => if String.eqb k "" then Err HpoError
         else do ls <- match lookup (x :: d) k with Some w => walk false w | None => Ok [] end; Ok (map (under k) ls))
         (sort (keys (x :: d))).
Proof.
  cbn [HpoModel.walk]. destruct (memS "dist" (keys (x :: d))); [reflexivity|].
  set (go := fix go (d : list (string * pyval)) : list (string * result (list leaf)) := match d with [] => [] | _ => _ end).
  assert (E : forall l, go l = map (fun kv => (fst kv, (fun (_ : string) w => walk false w) (fst kv) (snd kv))) l).
  { clear. induction l as [|[k w] d IH]; [reflexivity|]. cbn [map fst snd]. rewrite <- IH. reflexivity. }
  cbv zeta. destruct x as [a w]. rewrite (E d). generalize (sort (keys ((a, w) :: d))). intros l. induction l as [|k l IH]; [reflexivity|].
  cbn [concat_keys]. rewrite IH. rewrite <- (assoc_or_map (fun (_ : string) w => walk false w)). reflexivity.
Qed.

Lemma memS_mem k l : memS k l = true <-> In k l.
Proof.
  unfold memS. rewrite existsb_exists. split; [intros (x & H & E); apply String.eqb_eq in E; subst; exact H|].
  intros H. exists k. split; [exact H|apply String.eqb_refl].
Qed.
Lemma memS_keys d k : memS k (keys d) = false <-> lookup d k = None.
Proof.
  rewrite lookup_none_iff. unfold keys. rewrite <- memS_mem. destruct (memS k (map fst d)); split; congruence.
Qed.

Lemma concat_keys_ok {B} (f : string -> result (list B)) l out : concat_keys f l = Ok out ->
  (forall k, In k l -> exists a, f k = Ok a) /\
  (forall x, In x out <-> exists k a, In k l /\ f k = Ok a /\ In x a).
Proof.
  revert out. induction l as [|k l IH]; intros out H; cbn in H.
  - injection H as <-. split; [intros k []|]. intros x. split; [intros []|intros (k & a & [] & _)].
  - inv_bind H. inv_bind H. injection H as <-. destruct (IH a0 E0) as [I1 I2]. split.
    + intros k' [<-|Hk]; eauto.
    + intros x. rewrite in_app_iff, I2. split.
      * intros [H|(k' & b & Hk & Eb & Hx)]; [exists k, a|exists k', b]; cbn; auto.
      * intros (k' & b & [<-|Hk] & Eb & Hx); [left; congruence|right; exists k', b; auto].
Qed.
Lemma concat_keys_total {B} (f : string -> result (list B)) l :
  (forall k, In k l -> exists a, f k = Ok a) -> exists out, concat_keys f l = Ok out.
Proof.
  induction l as [|k l IH]; intros H; [eexists; reflexivity|]. cbn.
  destruct (H k (or_introl eq_refl)) as [a ->]. cbn. destruct IH as [t ->]; [intros; apply H; right; assumption|].
  eexists. reflexivity.
Qed.

Lemma get_or_absent d k : get_or d k PNone = PNone <-> absent d k.
Proof. unfold get_or, absent. destruct (lookup d k) as [v|]; [|tauto]. split; [intros ->; auto|intros [H|[= ->]]; [discriminate|reflexivity]]. Qed.

Lemma require_real_ok v x : require_real o v = Ok x <-> ((exists z, v = PInt z) \/ (exists y, v = PFloat y)) /\ py_float o v = Ok x.
Proof.
  split.
  - destruct v; cbn [require_real]; try discriminate; eauto 6.
  - intros [[[z ->]|[y ->]] H]; exact H.
Qed.
Lemma real_at_get d k x : real_at o d k x <-> require_real o (get_or d k PNone) = Ok x.
Proof.
  rewrite require_real_ok. unfold real_at, get_or. split.
  - intros (v & -> & H). exact H.
  - destruct (lookup d k) as [v|]; [eauto|]. intros [[[z H]|[y H]] _]; discriminate.
Qed.

Lemma validate_ok d spec (Hk : known_keys d) v0 (Hd : lookup d "dist" = Some v0) :
  (match get_or d "values" PNone with PNone | PList _ => True | _ => False end) ->
  (validate_distribution o (py_str o (get_or d "dist" PNone)) (get_or d "low" PNone) (get_or d "high" PNone)
     (get_or d "values" PNone) = Ok spec <-> valid_dist o d spec).
Proof.
  intros Hv. assert (Es : forall name, py_str o (get_or d "dist" PNone) = name <-> says o d name).
  { intros name. unfold says, get_or. rewrite Hd. split; [eauto|]. intros (v & [= <-] & E). exact E. }
  assert (Ed : says o d (py_str o (get_or d "dist" PNone))) by (apply Es; reflexivity).
  assert (Eu : forall n1 n2, says o d n1 -> says o d n2 -> n1 = n2) by (intros n1 n2 H1 H2; apply Es in H1, H2; congruence).
  revert Ed. generalize (py_str o (get_or d "dist" PNone)). intros name Ed.
  unfold validate_distribution, f64_geb.
  assert (Lg : forall k, match get_or d k PNone with PNone => absent d k | _ => ~ absent d k end).
  { intros k. pose proof (get_or_absent d k) as H. destruct (get_or d k PNone); try tauto; rewrite <- H; discriminate. }
  assert (Ln : forall k x, real_at o d k x -> get_or d k PNone <> PNone).
  { intros k x Hn E. apply real_at_get in Hn. rewrite E in Hn. discriminate. }
  destruct (String.eqb_spec name "uniform") as [->|N1].
  { split.
    - intros H. assert (H' : (do a <- require_real o (get_or d "low" PNone); do b <- require_real o (get_or d "high" PNone);
               if f64_leb b a then Err HpoError else match get_or d "values" PNone with PNone => Ok (Uniform a b) | _ => Err HpoError end) = Ok spec).
      { revert H. destruct (get_or d "low" PNone); try discriminate; destruct (get_or d "high" PNone); try discriminate; auto. }
      clear H. inv_bind H'. inv_bind H'. destruct (f64_leb a0 a) eqn:El; [discriminate|].
      destruct (get_or d "values" PNone) eqn:Ev; try discriminate. injection H' as <-.
      apply vd_uniform; auto; try (apply real_at_get; assumption). apply get_or_absent, Ev.
    - intros H. inversion H as [a b K1 K2 K3 K4 K5 K6|a b K1 K2|a b K1 K2|vs K1 K2]; try (specialize (Eu _ _ Ed K2); discriminate).
      subst. apply get_or_absent in K3. rewrite K3. pose proof (Ln _ _ K4) as L4. pose proof (Ln _ _ K5) as L5.
      apply real_at_get in K4, K5. destruct (get_or d "low" PNone), (get_or d "high" PNone); try congruence; try discriminate;
        rewrite K4, K5; cbn [bind]; rewrite K6; reflexivity. }
  destruct (String.eqb_spec name "loguniform") as [->|N2].
  { split.
    - intros H. assert (H' : (do a <- require_real o (get_or d "low" PNone); do b <- require_real o (get_or d "high" PNone);
               if f64_leb a f64_zero then Err HpoError else if f64_leb b a then Err HpoError else match get_or d "values" PNone with PNone => Ok (LogUniform a b) | _ => Err HpoError end) = Ok spec).
      { revert H. destruct (get_or d "low" PNone); try discriminate; destruct (get_or d "high" PNone); try discriminate; auto. }
      clear H. inv_bind H'. inv_bind H'. destruct (f64_leb a f64_zero) eqn:El0; [discriminate|].
      destruct (f64_leb a0 a) eqn:El; [discriminate|].
      destruct (get_or d "values" PNone) eqn:Ev; try discriminate. injection H' as <-.
      apply vd_loguniform; auto; try (apply real_at_get; assumption). apply get_or_absent, Ev.
    - intros H. inversion H as [a b K1 K2|a b K1 K2 K3 K4 K5 K6 K7|a b K1 K2|vs K1 K2]; try (specialize (Eu _ _ Ed K2); discriminate).
      subst. apply get_or_absent in K3. rewrite K3. pose proof (Ln _ _ K4) as L4. pose proof (Ln _ _ K5) as L5.
      apply real_at_get in K4, K5. destruct (get_or d "low" PNone), (get_or d "high" PNone); try congruence; try discriminate;
        rewrite K4, K5; cbn [bind]; rewrite K6, K7; reflexivity. }
  assert (Li : forall k z, lookup d k = Some (PInt z) <-> get_or d k PNone = PInt z).
  { intros k z. unfold get_or. destruct (lookup d k); split; congruence. }
  destruct (String.eqb_spec name "randint") as [->|N3].
  { split.
    - destruct (get_or d "low" PNone) eqn:E1, (get_or d "high" PNone) eqn:E2; try discriminate. cbn [require_int bind].
      destruct (z0 <=? z) eqn:El; [discriminate|]. destruct (get_or d "values" PNone) eqn:Ev; try discriminate. intros [= <-].
      apply vd_randint; auto; try (apply Li; assumption); [apply get_or_absent, Ev|lia].
    - intros H. inversion H as [a b K1 K2|a b K1 K2|a b K1 K2 K3 K4 K5 K6|vs K1 K2]; try (specialize (Eu _ _ Ed K2); discriminate).
      subst. apply get_or_absent in K3. apply Li in K4, K5. rewrite K3, K4, K5. cbn [require_int bind].
      replace (b <=? a) with false by lia. reflexivity. }
  destruct (String.eqb_spec name "choice") as [->|N4].
  { split.
    - destruct (get_or d "values" PNone) as [| | | | |[|x l]|] eqn:Ev; try discriminate.
      destruct (get_or d "low" PNone) eqn:E1; try discriminate. destruct (get_or d "high" PNone) eqn:E2; try discriminate.
      intros [= <-]. apply vd_choice; auto; try (apply get_or_absent; assumption); [|discriminate].
      unfold get_or in Ev. destruct (lookup d "values"); congruence.
    - intros H. inversion H as [a b K1 K2|a b K1 K2|a b K1 K2|vs K1 K2 K3 K4 K5 K6]; try (specialize (Eu _ _ Ed K2); discriminate).
      subst. apply get_or_absent in K3, K4. rewrite K3, K4. unfold get_or. rewrite K5. destruct vs; [congruence|reflexivity]. }
  split; [discriminate|]. intros H. exfalso.
  inversion H as [a b K1 K2|a b K1 K2|a b K1 K2|vs K1 K2]; specialize (Eu _ _ Ed K2); congruence.
Qed.

Lemma known_keys_b d : existsb (fun k => negb (memS k ["dist"; "low"; "high"; "values"]%string)) (keys d) = false <-> known_keys d.
Proof.
  unfold known_keys. split.
  - intros H k Hk. apply memS_mem. destruct (memS k ["dist"; "low"; "high"; "values"]%string) eqn:E; [reflexivity|].
    assert (existsb (fun k => negb (memS k ["dist"; "low"; "high"; "values"]%string)) (keys d) = true); [|congruence].
    apply existsb_exists. exists k. rewrite E. auto.
  - intros H. destruct (existsb _ (keys d)) eqn:E; [|reflexivity]. apply existsb_exists in E. destruct E as (k & Hk & E).
    apply H in Hk. apply memS_mem in Hk. rewrite Hk in E. discriminate.
Qed.
Lemma dist_leaf_ok d lf : memS "dist" (keys d) = true ->
  (dist_leaf o d = Ok lf <-> exists spec, valid_dist o d spec /\
     lf = {| lf_path := []; lf_values := candidates (Drawn spec); lf_dist := Some spec |}).
Proof.
  intros Hd. assert (Hv0 : exists v0, lookup d "dist" = Some v0).
  { destruct (lookup d "dist") eqn:E; [eauto|]. apply memS_keys in E. congruence. }
  destruct Hv0 as [v0 Hv0]. unfold dist_leaf. destruct (existsb _ (keys d)) eqn:Ek.
  { split; [discriminate|]. intros (spec & H & _). exfalso.
    assert (known_keys d) by (inversion H; assumption). apply known_keys_b in H0. congruence. }
  apply known_keys_b in Ek.
  assert (Hval : forall spec, valid_dist o d spec -> match get_or d "values" PNone with PNone | PList _ => True | _ => False end).
  { intros spec H. inversion H as [a b K1 K2 K3|a b K1 K2 K3|a b K1 K2 K3|vs K1 K2 K3 K4 K5]; subst;
      try (apply get_or_absent in K3; rewrite K3; exact I). unfold get_or. rewrite K5. exact I. }
  assert (Hgo : match get_or d "values" PNone with PNone | PList _ => True | _ => False end ->
     ((do spec <- validate_distribution o (py_str o (get_or d "dist" PNone)) (get_or d "low" PNone) (get_or d "high" PNone) (get_or d "values" PNone);
       Ok {| lf_path := []; lf_values := match spec with Choice vs => Some vs | _ => None end; lf_dist := Some spec |}) = Ok lf <->
      exists spec, valid_dist o d spec /\ lf = {| lf_path := []; lf_values := candidates (Drawn spec); lf_dist := Some spec |})).
  { intros Hv. split.
    - intros H. inv_bind H. injection H as <-. exists a. split; [apply (validate_ok d a Ek v0 Hv0 Hv), E|destruct a; reflexivity].
    - intros (spec & Hs & ->). apply (validate_ok d spec Ek v0 Hv0 Hv) in Hs. rewrite Hs. destruct spec; reflexivity. }
  destruct (get_or d "values" PNone) eqn:Ev; try (apply Hgo; exact I).
  all: split; [discriminate|]; intros (spec & H & _); destruct (Hval _ H).
Qed.

Lemma valid_dist_says d spec : valid_dist o d spec -> lookup d "dist" <> None.
Proof. intros H. inversion H as [a b _ K2|a b _ K2|a b _ K2|vs _ K2]; destruct K2 as (v & -> & _); discriminate. Qed.
Lemma valid_dist_unique d s1 s2 : valid_dist o d s1 -> valid_dist o d s2 -> s1 = s2.
Proof.
  intros H1 H2.
  assert (Hv0 : exists v0, lookup d "dist" = Some v0) by (pose proof (valid_dist_says _ _ H1); destruct (lookup d "dist"); [eauto|congruence]).
  destruct Hv0 as [v0 Hv0]. assert (Hk : known_keys d) by (inversion H1; assumption).
  assert (Hv : match get_or d "values" PNone with PNone | PList _ => True | _ => False end).
  { inversion H1 as [a b K1 K2 K3|a b K1 K2 K3|a b K1 K2 K3|vs K1 K2 K3 K4 K5]; subst;
      try (apply get_or_absent in K3; rewrite K3; exact I). unfold get_or. rewrite K5. exact I. }
  apply (validate_ok d _ Hk v0 Hv0 Hv) in H1, H2. congruence.
Qed.

Lemma walk_spec v : unique_keys v -> forall root ls, walk root v = Ok ls ->
  (forall p x, declares o v p x <-> exists l, In l ls /\ lf_path l = p /\ param_of l = x) /\
  (forall l, In l ls -> leaf_ok l) /\ NoDup (map lf_path ls) /\ separate (map lf_path ls) /\
  (root = true -> is_dict v = true -> forall l, In l ls -> lf_path l <> []).
Proof.
  induction v as [l _|d IH|v H1 H2] using pyval_ind'; intros Hu root ls H.
  - assert (El : l <> [] /\ ls = [{| lf_path := []; lf_values := Some l; lf_dist := None |}]).
    { destruct l; [discriminate|]. cbn in H. injection H as <-. split; [discriminate|reflexivity]. }
    destruct El as [Hl ->]. cbn. split; [|split; [|split; [|split]]].
    + intros p x. split.
      * intros Hd. inversion Hd; subst. eexists. split; [left; reflexivity|]. split; reflexivity.
      * intros (lf & [<-|[]] & <- & <-). cbn. constructor. exact Hl.
    + intros lf [<-|[]]. reflexivity.
    + constructor; [intros []|constructor].
    + intros p q [<-|[]] [<-|[]] _. reflexivity.
    + discriminate.
  - destruct d as [|y d]; [discriminate|]. rewrite walk_dict in H. destruct (memS "dist" (keys (y :: d))) eqn:Ed.
    + destruct root; [discriminate|]. inv_bind H. injection H as <-. apply (dist_leaf_ok _ _ Ed) in E.
      destruct E as (spec & Hs & ->). cbn [map lf_path]. split; [|split; [|split; [|split]]].
      * intros p x. split.
        -- intros Hde. inversion Hde as [|d' sp Hv E1 E2 E3|d' k w p' x' Hd0 Hl Hdw]; subst.
           ++ eexists. split; [left; reflexivity|]. split; [reflexivity|]. cbn. f_equal. eapply valid_dist_unique; eassumption.
           ++ apply memS_keys in Hd0. congruence.
        -- intros (lf & [<-|[]] & <- & <-). cbn. constructor. exact Hs.
      * intros lf [<-|[]]. reflexivity.
      * constructor; [intros []|constructor].
      * intros p q [<-|[]] [<-|[]] _. reflexivity.
      * discriminate.
    + pose proof (uk_nodup _ Hu) as Hn. rewrite Forall_forall in IH.
      set (f := fun k => if String.eqb k "" then Err HpoError
             else do ls <- match lookup (y :: d) k with Some w => walk false w | None => Ok [] end; Ok (map (under k) ls)) in H.
      assert (Hf : forall k a, In k (keys (y :: d)) -> f k = Ok a -> exists w lw, lookup (y :: d) k = Some w /\ walk false w = Ok lw /\ a = map (under k) lw).
      { intros k a Hk E. unfold f in E. destruct (String.eqb k ""); [discriminate|].
        destruct (lookup (y :: d) k) as [w|] eqn:El; [|apply lookup_none_iff in El; contradiction].
        inv_bind E. injection E as <-. eauto. }
      assert (Hperm : forall k, In k (sort (keys (y :: d))) <-> In k (keys (y :: d))).
      { intros k. split; apply Permutation_in; [|symmetry]; apply Hsort. }
      destruct (concat_keys_ok f _ _ H) as [K1 K2].
      assert (Hin : forall l, In l ls <-> exists k w lw l', lookup (y :: d) k = Some w /\ walk false w = Ok lw /\ In l' lw /\ l = under k l').
      { intros l. rewrite K2. split.
        - intros (k & a & Hk & Ea & Hl). destruct (Hf k a (proj1 (Hperm k) Hk) Ea) as (w & lw & E1 & E2 & ->).
          apply in_map_iff in Hl. destruct Hl as (l' & <- & Hl'). exists k, w, lw, l'. auto.
        - intros (k & w & lw & l' & E1 & E2 & Hl' & ->).
          assert (Hk : In k (keys (y :: d))) by (apply lookup_in in E1; apply (in_map fst) in E1; exact E1).
          destruct (K1 k (proj2 (Hperm k) Hk)) as [a Ea]. exists k, a. split; [apply Hperm, Hk|]. split; [exact Ea|].
          destruct (Hf k a Hk Ea) as (w' & lw' & E1' & E2' & ->). apply in_map. congruence. }
      assert (Hchild : forall k w lw, lookup (y :: d) k = Some w -> walk false w = Ok lw -> _) by
        (intros k w lw E1 E2; exact (IH (k, w) (lookup_in _ _ _ E1) (uk_child _ _ _ Hu E1) false lw E2)).
      split; [|split; [|split; [|split]]].
      * intros p x. split.
        -- intros Hde. inversion Hde as [|d' sp Hv E1 E2 E3|d' k w p' x' Hd0 Hl Hdw]; subst.
           ++ exfalso. apply (valid_dist_says _ _ Hv). apply memS_keys, Ed.
           ++ assert (Hk : In k (keys (y :: d))) by (pose proof (lookup_in _ _ _ Hl) as X; apply (in_map fst) in X; exact X).
              destruct (K1 k (proj2 (Hperm k) Hk)) as [a Ea]. destruct (Hf k a Hk Ea) as (w' & lw & E1' & E2' & ->).
              assert (w' = w) by congruence. subst w'. destruct (Hchild k w lw Hl E2') as (C1 & _).
              apply C1 in Hdw. destruct Hdw as (l' & Hl' & <- & <-). exists (under k l'). split; [apply Hin; exists k, w, lw, l'; auto|].
              split; reflexivity.
        -- intros (l & Hl & <- & <-). apply Hin in Hl. destruct Hl as (k & w & lw & l' & E1 & E2 & Hl' & ->). cbn.
           apply (de_key _ _ _ w); [apply memS_keys, Ed|exact E1|]. destruct (Hchild k w lw E1 E2) as (C1 & _). apply C1. exists l'. auto.
      * intros l Hl. apply Hin in Hl. destruct Hl as (k & w & lw & l' & E1 & E2 & Hl' & ->).
        destruct (Hchild k w lw E1 E2) as (_ & C2 & _). specialize (C2 l' Hl'). exact C2.
      * assert (Hns : NoDup (sort (keys (y :: d)))) by (eapply Permutation_NoDup; [symmetry; apply Hsort|exact Hn]).
        assert (Hall : forall k, In k (sort (keys (y :: d))) -> In k (keys (y :: d))) by (intros k; apply Hperm).
        clear - H Hns Hall Hf Hchild. revert ls H. induction (sort (keys (y :: d))) as [|k l IHl]; intros ls H; cbn in H.
        { injection H as <-. constructor. }
        inv_bind H. inv_bind H. injection H as <-. inversion_clear Hns as [|? ? Hni Hnd]. rewrite map_app. apply NoDup_app_iff.
        destruct (Hf k a (Hall k (or_introl eq_refl)) E) as (w & lw & E1 & E2 & ->).
        split; [|split].
        -- rewrite map_map. cbn. replace (map (fun x => k :: lf_path x) lw) with (map (cons k) (map lf_path lw)) by apply map_map.
           apply FinFun.Injective_map_NoDup; [intros u v [= ->]; reflexivity|]. apply (Hchild k w lw E1 E2).
        -- apply IHl; [exact Hnd|intros k' Hk'; apply Hall; right; exact Hk'|exact E0].
        -- intros p Hp Hp'. rewrite map_map in Hp. apply in_map_iff in Hp. destruct Hp as (l1 & <- & _).
           apply in_map_iff in Hp'. destruct Hp' as (l2 & Ep & Hl2).
           destruct (concat_keys_ok f _ _ E0) as [_ J]. apply J in Hl2. destruct Hl2 as (k' & b & Hk' & Eb & Hb).
           destruct (Hf k' b (Hall k' (or_intror Hk')) Eb) as (w' & lw' & _ & _ & ->).
           apply in_map_iff in Hb. destruct Hb as (l3 & <- & _). cbn in Ep. injection Ep as -> _. contradiction.
      * intros p q Hp Hq Hc. apply in_map_iff in Hp, Hq. destruct Hp as (l1 & <- & Hl1), Hq as (l2 & <- & Hl2).
        apply Hin in Hl1, Hl2. destruct Hl1 as (k & w & lw & l1' & E1 & E2 & Hl1 & ->), Hl2 as (k' & w' & lw' & l2' & E1' & E2' & Hl2 & ->).
        cbn in *. assert (k = k') by (destruct Hc as [[r E]|[r E]]; cbn in E; congruence). subst k'.
        assert (w' = w) by congruence. subst w'. assert (lw' = lw) by congruence. subst lw'.
        apply comparable_cons in Hc. f_equal. destruct (Hchild k w lw E1 E2) as (_ & _ & _ & C4 & _).
        apply C4; [apply in_map, Hl1|apply in_map, Hl2|exact Hc].
      * intros _ _ l Hl. apply Hin in Hl. destruct Hl as (k & w & lw & l' & _ & _ & _ & ->). discriminate.
  - destruct v; cbn in H; try discriminate; exfalso; [eapply H2|eapply H1]; reflexivity.
Qed.

Lemma walk_accepts v : unique_keys v -> ((exists ls, walk false v = Ok ls) <-> valid_space o v).
Proof.
  induction v as [l _|d IH|v H1 H2] using pyval_ind'; intros Hu.
  - split.
    + intros [ls H]. destruct l; [discriminate|]. constructor. discriminate.
    + intros H. inversion H; subst. destruct l; [congruence|]. eexists. reflexivity.
  - destruct d as [|y d].
    { split; [intros [ls H]; discriminate|]. intros H. inversion H as [|d' spec Hv|d' Hd]; subst; [|congruence].
      exfalso. apply (valid_dist_says _ _ Hv). reflexivity. }
    rewrite walk_dict. destruct (memS "dist" (keys (y :: d))) eqn:Ed.
    + split.
      * intros [ls H]. inv_bind H. apply (dist_leaf_ok _ _ Ed) in E. destruct E as (spec & Hs & _). eapply vs_dist. exact Hs.
      * intros H. inversion H as [|d' spec Hv|d' Hd Hnd Hall]; subst; [|apply memS_keys in Hnd; congruence].
        assert (E : dist_leaf o (y :: d) = Ok {| lf_path := []; lf_values := candidates (Drawn spec); lf_dist := Some spec |}).
        { apply dist_leaf_ok; [exact Ed|]. exists spec. auto. }
        rewrite E. eexists. reflexivity.
    + rewrite Forall_forall in IH. assert (Hperm : forall k, In k (sort (keys (y :: d))) <-> In k (keys (y :: d))).
      { intros k. split; apply Permutation_in; [|symmetry]; apply Hsort. }
      split.
      * intros [ls H]. apply concat_keys_ok in H. destruct H as [K1 _]. apply vs_dict; [discriminate|apply memS_keys, Ed|].
        intros k v Hl. assert (Hk : In k (keys (y :: d))) by (pose proof (lookup_in _ _ _ Hl) as X; apply (in_map fst) in X; exact X).
        destruct (K1 k (proj2 (Hperm k) Hk)) as [a Ea]. destruct (String.eqb_spec k "") as [|Hne]; [discriminate|].
        rewrite Hl in Ea. split; [exact Hne|]. inv_bind Ea.
        apply (IH (k, v) (lookup_in _ _ _ Hl) (uk_child _ _ _ Hu Hl)). eauto.
      * intros H. inversion H as [|d' spec Hv|d' Hd Hnd Hall]; subst.
        { exfalso. apply (valid_dist_says _ _ Hv). apply memS_keys, Ed. }
        apply concat_keys_total. intros k Hk. apply Hperm in Hk.
        destruct (lookup (y :: d) k) as [w|] eqn:El; [|apply lookup_none_iff in El; contradiction].
        destruct (Hall k w El) as [Hne Hw]. destruct (String.eqb_spec k "") as [|_]; [contradiction|].
        apply (IH (k, w) (lookup_in _ _ _ El) (uk_child _ _ _ Hu El)) in Hw. destruct Hw as [lw Elw]. cbn [snd] in Elw. rewrite Elw. eexists. reflexivity.
  - split.
    + intros [ls H]. destruct v; cbn in H; try discriminate; exfalso; [eapply H2|eapply H1]; reflexivity.
    + intros H. inversion H; subst; exfalso; [eapply H2|eapply H1|eapply H1]; reflexivity.
Qed.
Lemma walk_nonempty v root ls : unique_keys v -> walk root v = Ok ls -> ls <> [].
Proof.
  revert root ls. induction v as [l _|d IH|v H1 H2] using pyval_ind'; intros root ls Hu H.
  - destruct l; [discriminate|]. cbn in H. injection H as <-. discriminate.
  - destruct d as [|y d]; [discriminate|]. rewrite walk_dict in H. destruct (memS "dist" (keys (y :: d))).
    + destruct root; [discriminate|]. inv_bind H. injection H as <-. discriminate.
    + apply concat_keys_ok in H. destruct H as [K1 K2]. destruct y as [k w].
      assert (Hk : In k (sort (keys ((k, w) :: d)))) by (eapply Permutation_in; [symmetry; apply Hsort|left; reflexivity]).
      destruct (K1 k Hk) as [a Ea]. pose proof Ea as Ea0. destruct (String.eqb k "") eqn:Ek; [discriminate|].
      rewrite lookup_cons, String.eqb_refl in Ea. inv_bind Ea. injection Ea as <-.
      inversion_clear IH as [|? ? IHw _].
      assert (Hne : a0 <> []). { apply (IHw false a0); [|exact E]. apply uk_items in Hu. inversion_clear Hu. assumption. }
      destruct a0 as [|l0 r0]; [congruence|]. intros ->. apply (proj2 (K2 (under k l0))).
      exists k, (map (under k) (l0 :: r0)). split; [exact Hk|]. split; [rewrite Ek; exact Ea0|]. left. reflexivity.
  - destruct v; cbn in H; try discriminate; exfalso; [eapply H2|eapply H1]; reflexivity.
Qed.
End Space.

(* ------------------------------------------------------------------ itertools.product *)
Fixpoint ivec (gs : list (list pyval)) : list (list nat) :=
  match gs with [] => [[]] | vs :: r => flat_map (fun i => map (cons i) (ivec r)) (seq 0 (List.length vs)) end.
Definition choose (gs : list (list pyval)) (ix : list nat) : list pyval :=
  map (fun gi => nth (snd gi) (fst gi) PNone) (combine gs ix).
Lemma map_nth_seq (vs : list pyval) : map (fun i => nth i vs PNone) (seq 0 (List.length vs)) = vs.
Proof.
  induction vs as [|v vs IH]; [reflexivity|]. cbn [List.length seq map nth]. f_equal.
  rewrite <- seq_shift, map_map. exact IH.
Qed.
Lemma product_ivec gs : product gs = map (choose gs) (ivec gs).
Proof.
  induction gs as [|vs r IH]; [reflexivity|]. cbn [product ivec].
  rewrite <- (map_nth_seq vs) at 1. rewrite !flat_map_concat_map, concat_map, !map_map. f_equal. apply map_ext. intros i.
  rewrite IH, !map_map. apply map_ext. intros ix. reflexivity.
Qed.
Lemma ivec_in gs ix : In ix (ivec gs) <-> valid_choice gs ix.
Proof.
  unfold valid_choice. revert ix. induction gs as [|vs r IH]; intros ix; cbn [ivec].
  - split; [intros [<-|[]]; constructor|]. intros H. inversion H. left. reflexivity.
  - rewrite in_flat_map. split.
    + intros (i & Hi & Hx). apply in_map_iff in Hx. destruct Hx as (t & <- & Ht). apply in_seq in Hi. constructor; [lia|apply IH, Ht].
    + intros H. inversion H as [|i vs' t r' Hi Ht]; subst. exists i. split; [apply in_seq; lia|]. apply in_map, IH, Ht.
Qed.
Lemma ss_app {A} (R : A -> A -> Prop) l1 l2 : StronglySorted R l1 -> StronglySorted R l2 ->
  (forall x y, In x l1 -> In y l2 -> R x y) -> StronglySorted R (l1 ++ l2).
Proof.
  intros H1 H2 H. induction H1 as [|a l1 H1 IH Ha]; [exact H2|]. cbn. constructor.
  - apply IH. intros x y Hx. apply H. right. exact Hx.
  - rewrite Forall_forall in *. intros y Hy. apply in_app_or in Hy. destruct Hy as [Hy|Hy]; [apply Ha, Hy|].
    apply H; [left; reflexivity|exact Hy].
Qed.
Lemma ivec_sorted gs : StronglySorted earlier (ivec gs).
Proof.
  induction gs as [|vs r IH]; cbn [ivec]; [repeat constructor|].
  generalize 0%nat. induction (List.length vs) as [|n IHn]; intros s; [constructor|]. cbn [seq flat_map]. apply ss_app.
  - clear IHn. induction IH as [|a l Hl IHl Ha]; cbn; constructor; [exact IHl|]. rewrite Forall_forall in *.
    intros y Hy. apply in_map_iff in Hy. destruct Hy as (t & <- & Ht). apply ea_tail, Ha, Ht.
  - apply IHn.
  - intros x y Hx Hy. apply in_map_iff in Hx. destruct Hx as (t & <- & _). apply in_flat_map in Hy.
    destruct Hy as (j & Hj & Hy). apply in_map_iff in Hy. destruct Hy as (t' & <- & _). apply in_seq in Hj. apply ea_head. lia.
Qed.
Lemma earlier_irrefl x : ~ earlier x x.
Proof. induction x; intros H; inversion H; subst; [lia|auto]. Qed.
Lemma sorted_nodup l : StronglySorted earlier l -> NoDup l.
Proof.
  induction 1 as [|a l Hl IH Ha]; constructor; [|exact IH]. intros Hin. rewrite Forall_forall in Ha.
  apply (earlier_irrefl a), Ha, Hin.
Qed.

Lemma grids_ok ls gs : grids ls = Ok gs <-> map lf_values ls = map Some gs.
Proof.
  revert gs. induction ls as [|l ls IH]; intros gs; cbn.
  - destruct gs; split; intros H; try discriminate; reflexivity.
  - destruct (lf_values l) as [vs|]; [|destruct gs; split; discriminate]. split.
    + intros H. inv_bind H. injection H as <-. cbn. f_equal. apply IH. exact E.
    + intros H. destruct gs as [|g gs]; [discriminate|]. cbn in H. injection H as -> H. apply IH in H. rewrite H. reflexivity.
Qed.
Lemma grids_total ls : (exists gs, grids ls = Ok gs) <-> (forall l, In l ls -> lf_values l <> None).
Proof.
  induction ls as [|l ls IH]; cbn.
  - split; [intros _ l []|eauto].
  - destruct (lf_values l) as [vs|] eqn:E.
    + split.
      * intros [gs H]. inv_bind H. intros l' [<-|Hl]; [congruence|]. apply IH; [eauto|exact Hl].
      * intros H. destruct (proj2 IH) as [gs ->]; [intros l' Hl; apply H; right; exact Hl|]. eexists. reflexivity.
    + split; [intros [gs H]; discriminate|]. intros H. exfalso. apply (H l (or_introl eq_refl) E).
Qed.

Section Search.
Variable sort : list string -> list string.
Hypothesis Hsort : sorts sort.
Variable o : Oracle.

Lemma from_dict_spec d ls : unique_keys (PDict d) -> from_dict sort o d = Ok ls ->
  (forall p x, declares o (PDict d) p x <-> exists l, In l ls /\ lf_path l = p /\ param_of l = x) /\
  (forall l, In l ls -> leaf_ok l) /\ NoDup (map lf_path ls) /\ separate (map lf_path ls) /\
  (forall l, In l ls -> lf_path l <> []).
Proof.
  intros Hu H. unfold from_dict in H. inv_bind H. assert (a = ls) by (destruct a; [discriminate|congruence]). subst a.
  destruct (walk_spec sort Hsort o (PDict d) Hu true ls E) as (H1 & H2 & H3 & H4 & H5).
  repeat split; auto; apply H1.
Qed.
Lemma from_dict_accepts d : unique_keys (PDict d) ->
  ((exists ls, from_dict sort o d = Ok ls) <-> valid_space o (PDict d) /\ lookup d "dist" = None).
Proof.
  intros Hu. unfold from_dict. split.
  - intros [ls H]. inv_bind H. destruct d as [|y d]; [discriminate|]. pose proof E as E0. rewrite walk_dict in E.
    destruct (memS "dist" (keys (y :: d))) eqn:Ed; [discriminate|]. split; [|apply memS_keys, Ed].
    apply (walk_accepts sort Hsort o _ Hu). exists a. rewrite walk_dict, Ed. exact E.
  - intros [Hv Hd]. apply (walk_accepts sort Hsort o _ Hu) in Hv. destruct Hv as [ls E].
    destruct d as [|y d]; [discriminate|]. apply memS_keys in Hd.
    assert (E' : walk sort o true (PDict (y :: d)) = Ok ls) by (rewrite walk_dict, Hd in *; exact E).
    rewrite E'. cbn [bind]. pose proof (walk_nonempty sort Hsort o _ _ _ Hu E'). destruct ls; [congruence|]. eauto.
Qed.

Lemma assign_leaves ls vs : NoDup (map lf_path ls) -> separate (map lf_path ls) -> (forall l, In l ls -> lf_path l <> []) ->
  List.length vs = List.length ls -> exists d, assign_all [] ls vs = Ok d /\ holds d (combine (map lf_path ls) vs).
Proof.
  intros Hn Hs Hp Hl. destruct (assign_all_holds ls vs [] [] Hl) as (d & E & H1 & H2).
  - split; [intros p v []|]. intros q w Hq Hg. destruct q; [congruence|discriminate].
  - exact Hn.
  - cbn. rewrite app_nil_r. exact Hs.
  - intros l Hin. split; [apply Hp, Hin|intros []].
  - exists d. split; [exact E|]. rewrite app_nil_r in *. split.
    + intros p v Hin. apply H1. rewrite <- in_rev. exact Hin.
    + intros q w Hq Hg. destruct (H2 q w Hq Hg) as (p & v & Hin & Hc). exists p, v. split; [apply in_rev, Hin|exact Hc].
Qed.

Lemma number_spec ls combos : NoDup (map lf_path ls) -> separate (map lf_path ls) -> (forall l, In l ls -> lf_path l <> []) ->
  (forall c, In c combos -> List.length c = List.length ls) -> forall i,
  exists trials, number sort ls i combos = Ok trials /\ map t_index trials = map (fun j => i + j) (arange (lenZ combos)) /\
    Forall2 (fun c t => holds (t_patch t) (combine (map lf_path ls) c) /\ t_params t = flatten_patch sort (t_patch t)) combos trials.
Proof.
  intros Hn Hs Hp. induction combos as [|c combos IH]; intros Hc i.
  - exists []. split; [reflexivity|]. split; [reflexivity|constructor].
  - cbn [number]. destruct (assign_leaves ls c Hn Hs Hp) as (d & -> & Hd); [apply Hc; left; reflexivity|]. cbn [bind].
    destruct (IH (fun c H => Hc c (or_intror H)) (i + 1)) as (ts & -> & Ht & HF). cbn [bind].
    eexists. split; [reflexivity|]. split; [|constructor; [split; [exact Hd|reflexivity]|exact HF]].
    cbn [map t_index]. rewrite Ht. unfold arange, lenZ. cbn [List.length]. rewrite !Nat2Z.id. cbn [seq map].
    f_equal; [lia|]. rewrite <- seq_shift, !map_map. apply map_ext. intros j. lia.
Qed.

Lemma Forall2_map_l {A B C} (f : A -> B) (P : B -> C -> Prop) l l' : Forall2 P (map f l) l' <-> Forall2 (fun a c => P (f a) c) l l'.
Proof.
  revert l'. induction l as [|a l IH]; intros l'; cbn; (split; intros H; inversion H; subst; constructor; auto; apply IH; auto).
Qed.
Lemma Forall2_imp {A B} (P Q : A -> B -> Prop) l l' : (forall a b, In a l -> P a b -> Q a b) -> Forall2 P l l' -> Forall2 Q l l'.
Proof.
  intros H HF. induction HF as [|a b l l' Hab HF IH]; constructor; [apply H; [left; reflexivity|exact Hab]|].
  apply IH. intros a' b' Ha. apply H. right. exact Ha.
Qed.
Lemma combine_choose (ps : list (list string)) gs ix : List.length ps = List.length gs -> List.length ix = List.length gs ->
  combine ps (choose gs ix) = picked (combine ps gs) ix.
Proof.
  revert gs ix. induction ps as [|p ps IH]; intros [|g gs] [|i ix] H1 H2; try discriminate; [reflexivity|].
  unfold picked, choose in *. cbn. f_equal. apply IH; [injection H1 as H1; exact H1|injection H2 as H2; exact H2].
Qed.
Lemma valid_choice_length gs ix : valid_choice gs ix -> List.length ix = List.length gs.
Proof. unfold valid_choice. induction 1; cbn; congruence. Qed.

Lemma iter_grid_total d ls : unique_keys (PDict d) -> from_dict sort o d = Ok ls ->
  ((exists trials, iter_grid sort ls = Ok trials) <-> (forall p x, declares o (PDict d) p x -> candidates x <> None)).
Proof.
  intros Hu H. destruct (from_dict_spec d ls Hu H) as (H1 & H2 & H3 & H4 & H5). unfold iter_grid. split.
  - intros [ts E]. inv_bind E. intros p x Hd. apply H1 in Hd. destruct Hd as (l & Hl & _ & <-).
    rewrite <- (H2 l Hl). apply grids_total in Hl; [exact Hl|eauto].
  - intros Hc. destruct (proj2 (grids_total ls)) as [gs Eg].
    { intros l Hl. rewrite (H2 l Hl). apply (Hc (lf_path l)). apply H1. eauto. }
    rewrite Eg. cbn [bind]. destruct (number_spec ls (product gs) H3 H4 H5) with (i := 0) as (ts & -> & _); [|eauto].
    intros c Hin. rewrite product_ivec in Hin. apply in_map_iff in Hin. destruct Hin as (ix & <- & Hix).
    apply ivec_in, valid_choice_length in Hix. unfold choose. rewrite map_length, combine_length, Hix, Nat.min_id.
    apply grids_ok in Eg. apply (f_equal (@List.length _)) in Eg. rewrite !map_length in Eg. congruence.
Qed.
Lemma iter_grid_spec d ls trials : unique_keys (PDict d) -> from_dict sort o d = Ok ls -> iter_grid sort ls = Ok trials ->
  exists params choices,
    NoDup (map fst params) /\ StronglySorted earlier choices /\
    (forall p vs, In (p, vs) params <-> exists x, declares o (PDict d) p x /\ candidates x = Some vs) /\
    (forall ix, In ix choices <-> valid_choice (map snd params) ix) /\
    map t_index trials = arange (lenZ trials) /\
    Forall2 (fun ix t => holds (t_patch t) (picked params ix) /\ t_params t = flatten_patch sort (t_patch t)) choices trials.
Proof.
  intros Hu H E. destruct (from_dict_spec d ls Hu H) as (H1 & H2 & H3 & H4 & H5). unfold iter_grid in E. inv_bind E.
  rename a into gs. pose proof E0 as Eg. apply grids_ok in Eg.
  assert (Hlen : List.length ls = List.length gs) by (apply (f_equal (@List.length _)) in Eg; rewrite !map_length in Eg; exact Eg).
  assert (Hsnd : map snd (combine (map lf_path ls) gs) = gs).
  { clear - Hlen. revert gs Hlen. induction ls; intros [|g gs] Hl; try discriminate; [reflexivity|]. cbn. f_equal. apply IHls. injection Hl as Hl. exact Hl. }
  assert (Hfst : map fst (combine (map lf_path ls) gs) = map lf_path ls).
  { clear - Hlen. revert gs Hlen. induction ls; intros [|g gs] Hl; try discriminate; [reflexivity|]. cbn. f_equal. apply IHls. injection Hl as Hl. exact Hl. }
  exists (combine (map lf_path ls) gs), (ivec gs). rewrite Hsnd, Hfst. split; [exact H3|]. split; [apply ivec_sorted|].
  split; [|split; [intros ix; apply ivec_in|]].
  - intros p vs. transitivity (exists l, In l ls /\ lf_path l = p /\ lf_values l = Some vs).
    + clear - Eg Hlen. revert gs Eg Hlen. induction ls as [|l ls IH]; intros [|g gs] Eg Hlen; try discriminate.
      * cbn. split; [intros []|intros (l & [] & _)].
      * cbn in *. injection Eg as El Eg. injection Hlen as Hlen. rewrite (IH gs Eg Hlen). split.
        -- intros [[= <- <-]|(l' & Hl & A)]; [exists l; auto|exists l'; tauto].
        -- intros (l' & [<-|Hl] & A & B); [left; congruence|right; exists l'; auto].
    + split.
      * intros (l & Hl & <- & Ev). exists (param_of l). split; [apply H1; eauto|]. rewrite <- (H2 l Hl). exact Ev.
      * intros (x & Hd & Hc). apply H1 in Hd. destruct Hd as (l & Hl & <- & <-). exists l. rewrite (H2 l Hl). auto.
  - assert (Hc : forall c, In c (product gs) -> List.length c = List.length ls).
    { intros c Hin. rewrite product_ivec in Hin. apply in_map_iff in Hin. destruct Hin as (ix & <- & Hix).
      apply ivec_in, valid_choice_length in Hix. unfold choose. rewrite map_length, combine_length, Hix, Nat.min_id. congruence. }
    destruct (number_spec ls (product gs) H3 H4 H5 Hc 0) as (ts & Ets & Hidx & HF).
    assert (ts = trials) by congruence. subst ts. split.
    + rewrite Hidx. transitivity (arange (lenZ (product gs))).
      * transitivity (map (fun j : Z => j) (arange (lenZ (product gs)))); [apply map_ext; intros; lia|apply map_id].
      * apply Forall2_length in HF. unfold lenZ. rewrite HF. reflexivity.
    + rewrite product_ivec in HF. apply (proj1 (Forall2_map_l _ _ _ _)) in HF. eapply Forall2_imp; [|exact HF].
      intros ix t Hix [A B]. apply ivec_in, valid_choice_length in Hix. split; [|exact B].
      rewrite <- combine_choose; [exact A|rewrite map_length; exact Hlen|exact Hix].
Qed.

(* ------------------------------------------------------------------ random search *)
Section Rand.
Context {S : Type}.
Variable R : Rng S.
Hypothesis HR : rng_ok R.

Lemma sample_values_ok vs s v s' : sample_from_values R vs s = Ok (v, s') -> In v vs.
Proof.
  unfold sample_from_values. destruct vs as [|a l]; [discriminate|]. destruct (r_int R s 0 (lenZ (a :: l))) as [i s1] eqn:E.
  intros H. assert (Ev : v = nth (Z.to_nat i) (a :: l) PNone) by congruence. rewrite Ev. clear H Ev.
  destruct HR as [Hi _]. specialize (Hi s 0 (lenZ (a :: l))). rewrite E in Hi. cbn [fst] in Hi.
  unfold lenZ in Hi. cbn [List.length] in Hi. apply nth_In. cbn [List.length]. lia.
Qed.
Lemma sample_leaf_ok l s v s' : (forall d, lf_dist l = Some d -> match d with RandInt a b => a < b | _ => True end) ->
  sample_leaf R l s = Ok (v, s') -> allowed (param_of l) v.
Proof.
  intros Hd. unfold sample_leaf, param_of. destruct (lf_dist l) as [[a b|a b|a b|vs]|]; cbn [sample_distribution allowed].
  - destruct (r_uniform R s a b) as [r s1] eqn:E. intros H. inv_bind H. injection H as <- <-. exists a0. split; [reflexivity|].
    destruct HR as [_ Hu]. eapply Hu. rewrite E, E0. reflexivity.
  - intros H. inv_bind H. inv_bind H. destruct (r_uniform R s a0 a1) as [r s1]. inv_bind H. inv_bind H. injection H as <- <-. eauto.
  - destruct (r_int R s a b) as [z s1] eqn:E. intros [= <- <-]. exists z. split; [reflexivity|].
    destruct HR as [Hi _]. specialize (Hi s a b (Hd _ eq_refl)). rewrite E in Hi. exact Hi.
  - apply sample_values_ok.
  - apply sample_values_ok.
Qed.

Lemma sample_leaves_split ls : forall d s p s', sample_leaves R ls d s = Ok (p, s') ->
  exists vs, List.length vs = List.length ls /\ assign_all d ls vs = Ok p /\
    Forall2 (fun l v => exists s1 s2, sample_leaf R l s1 = Ok (v, s2)) ls vs.
Proof.
  induction ls as [|l ls IH]; intros d s p s' H; cbn in H.
  - injection H as <- <-. exists []. repeat split; constructor.
  - inv_bind H. destruct a as [v s1]. inv_bind H. apply IH in H. destruct H as (vs & H1 & H2 & H3).
    exists (v :: vs). cbn. rewrite E0. cbn. split; [congruence|]. split; [exact H2|]. constructor; [eauto|exact H3].
Qed.

Definition trial_ok (sp : pyval) (t : trial) : Prop :=
  t_params t = flatten_patch sort (t_patch t) /\
  exists values, NoDup (map fst values) /\ holds (t_patch t) values /\
    (forall p, In p (map fst values) <-> exists x, declares o sp p x) /\
    (forall p v, In (p, v) values -> exists x, declares o sp p x /\ allowed x v).

Lemma declares_randint v p x : declares o v p x -> forall a b, x = Drawn (RandInt a b) -> a < b.
Proof. induction 1; intros a b E; try discriminate; [|eauto]. injection E as ->. inversion H. assumption. Qed.

Lemma random_trial_ok d ls p s s' i : unique_keys (PDict d) -> from_dict sort o d = Ok ls ->
  sample_leaves R ls [] s = Ok (p, s') -> trial_ok (PDict d) {| t_index := i; t_patch := p; t_params := flatten_patch sort p |}.
Proof.
  intros Hu H E. destruct (from_dict_spec d ls Hu H) as (H1 & H2 & H3 & H4 & H5).
  apply sample_leaves_split in E. destruct E as (vs & Hl & Ea & HF). split; [reflexivity|].
  destruct (assign_leaves ls vs H3 H4 H5 Hl) as (p' & Ep & Hh). assert (p' = p) by congruence. subst p'.
  exists (combine (map lf_path ls) vs). cbn [t_patch].
  assert (Hfst : map fst (combine (map lf_path ls) vs) = map lf_path ls).
  { clear - Hl. revert vs Hl. induction ls; intros [|g gs] Hl; try discriminate; [reflexivity|]. cbn. f_equal. apply IHls. injection Hl as Hl. exact Hl. }
  rewrite Hfst. split; [exact H3|]. split; [exact Hh|]. split.
  - intros q. rewrite in_map_iff. split.
    + intros (l & <- & Hin). exists (param_of l). apply H1. eauto.
    + intros (x & Hd). apply H1 in Hd. destruct Hd as (l & Hin & <- & _). eauto.
  - intros q v Hin. assert (G : exists l, In l ls /\ lf_path l = q /\ exists s1 s2, sample_leaf R l s1 = Ok (v, s2)).
    { clear - Hin HF. induction HF as [|l w ls vs Hw HF IH]; [destruct Hin|]. cbn in Hin. destruct Hin as [[= <- <-]|Hin].
      - exists l. split; [left; reflexivity|]. auto.
      - destruct (IH Hin) as (l' & A & B). exists l'. split; [right; exact A|exact B]. }
    destruct G as (l & Hlin & <- & s1 & s2 & Es). exists (param_of l).
    assert (Hde : declares o (PDict d) (lf_path l) (param_of l)) by (apply H1; eauto). split; [exact Hde|].
    eapply sample_leaf_ok; [|exact Es]. intros dd Edd. destruct dd as [| |a b|]; auto.
    eapply declares_randint; [exact Hde|]. unfold param_of. rewrite Edd. reflexivity.
Qed.

Lemma random_trials_spec d ls : unique_keys (PDict d) -> from_dict sort o d = Ok ls -> forall n i s trials,
  random_trials sort R ls i n s = Ok trials ->
  List.length trials = n /\ map t_index trials = map (fun j => i + j) (arange (Z.of_nat n)) /\ Forall (trial_ok (PDict d)) trials.
Proof.
  intros Hu H. induction n as [|n IH]; intros i s trials E; cbn [random_trials] in E.
  - injection E as <-. repeat split; constructor.
  - inv_bind E. destruct a as [p s1]. inv_bind E. injection E as <-. apply IH in E1. destruct E1 as (A & B & C).
    split; [cbn; congruence|]. split.
    + cbn [map t_index]. rewrite B. unfold arange. rewrite !Nat2Z.id. cbn [seq map]. f_equal; [lia|].
      rewrite <- seq_shift, !map_map. apply map_ext. intros j. lia.
    + constructor; [|exact C]. eapply random_trial_ok; eassumption.
Qed.
Lemma sample_values_draw vs s v s' : sample_from_values R vs s = Ok (v, s') -> exists i, r_int R s 0 (lenZ vs) = (i, s') /\ nth_error vs (Z.to_nat i) = Some v.
Proof.
  unfold sample_from_values. destruct vs as [|a l]; [discriminate|]. destruct (r_int R s 0 (lenZ (a :: l))) as [i s1] eqn:E.
  intros H. exists i. assert (Ev : v = nth (Z.to_nat i) (a :: l) PNone) by congruence. assert (Es : s1 = s') by congruence. split; [now rewrite Es|].
  destruct HR as [Hi _]. specialize (Hi s 0 (lenZ (a :: l))). rewrite E in Hi. cbn [fst] in Hi. unfold lenZ in Hi. rewrite Ev. apply nth_error_nth'. cbn [List.length] in *. lia.
Qed.
Lemma sample_leaf_draw l s v s' : sample_leaf R l s = Ok (v, s') -> draw R s (param_of l) v s'.
Proof.
  unfold sample_leaf, param_of. destruct (lf_dist l) as [[a b|a b|a b|vs]|]; cbn [sample_distribution].
  - destruct (r_uniform R s a b) as [r s1] eqn:E. intros H. inv_bind H. injection H as <- <-. subst r. now constructor.
  - intros H. inv_bind H. inv_bind H. destruct (r_uniform R s a0 a1) as [r s1] eqn:E2. inv_bind H. inv_bind H. injection H as <- <-. subst r. econstructor; eassumption.
  - destruct (r_int R s a b) as [z s1] eqn:E. intros [= <- <-]. now constructor.
  - intros H. apply sample_values_draw in H. destruct H as (i & A & B). econstructor; eassumption.
  - intros H. apply sample_values_draw in H. destruct H as (i & A & B). econstructor; eassumption.
Qed.
Lemma sample_leaves_draws ls : forall d s p s', sample_leaves R ls d s = Ok (p, s') ->
  exists vs, List.length vs = List.length ls /\ assign_all d ls vs = Ok p /\ draws R s (combine (map param_of ls) vs) s'.
Proof.
  induction ls as [|l ls IH]; intros d s p s' H; cbn in H.
  - injection H as <- <-. exists []. repeat split; constructor.
  - inv_bind H. destruct a as [v s1]. inv_bind H. apply IH in H. destruct H as (vs & H1 & H2 & H3).
    exists (v :: vs). cbn. rewrite E0. cbn. split; [congruence|]. split; [exact H2|]. econstructor; [apply sample_leaf_draw; eassumption|exact H3].
Qed.
Lemma draws_app s l1 s1 l2 s2 : draws R s l1 s1 -> draws R s1 l2 s2 -> draws R s (l1 ++ l2) s2.
Proof. induction 1; intros H2; [exact H2|]. cbn. econstructor; [eassumption|auto]. Qed.
Lemma random_trials_draws d ls : unique_keys (PDict d) -> from_dict sort o d = Ok ls -> forall n i s trials,
  random_trials sort R ls i n s = Ok trials ->
  exists vals s', Forall2 (fun t vs => List.length vs = List.length ls /\ holds (t_patch t) (combine (map lf_path ls) vs)) trials vals /\
    draws R s (concat (map (combine (map param_of ls)) vals)) s'.
Proof.
  intros Hu H. destruct (from_dict_spec d ls Hu H) as (H1 & H2 & H3 & H4 & H5).
  induction n as [|n IH]; intros i s trials E; cbn [random_trials] in E.
  - injection E as <-. exists [], s. split; constructor.
  - inv_bind E. destruct a as [p s1]. inv_bind E. injection E as <-. apply IH in E1. destruct E1 as (vals & s' & F & D).
    apply sample_leaves_draws in E0. destruct E0 as (vs & Hl & Ea & Dv).
    destruct (assign_leaves ls vs H3 H4 H5 Hl) as (p' & Ep & Hh). assert (p' = p) by congruence. subst p'.
    exists (vs :: vals), s'. split; [constructor; [split; [exact Hl|exact Hh]|exact F]|]. cbn [map concat]. eapply draws_app; eassumption.
Qed.
Lemma random_trials_prefix ls m : forall n i s trials, (m <= n)%nat -> random_trials sort R ls i n s = Ok trials ->
  random_trials sort R ls i m s = Ok (firstn m trials).
Proof.
  induction m as [|m IH]; intros n i s trials Hm E; [reflexivity|]. destruct n as [|n]; [lia|].
  cbn [random_trials] in *. inv_bind E. destruct a as [p s1]. rewrite E0. cbn [bind]. inv_bind E. injection E as <-.
  rewrite (IH n (i + 1) s1 a ltac:(lia) E1). reflexivity.
Qed.

Lemma sample_leaf_total l s : leaf_ok l -> (forall vs, param_of l = Listed vs -> vs <> []) -> (forall vs, param_of l = Drawn (Choice vs) -> vs <> []) ->
  (forall s a b, exists x, fst (r_uniform R s a b) = Ok x) -> (forall x, exists y, m_log R x = Ok y) -> (forall x, exists y, m_exp R x = Ok y) ->
  exists v s', sample_leaf R l s = Ok (v, s').
Proof.
  intros Hl Hv Hc Hu Hlog Hexp.
  assert (Hs : forall vs, vs <> [] -> exists v s', sample_from_values R vs s = Ok (v, s')).
  { intros vs H. unfold sample_from_values. destruct vs as [|a r]; [congruence|]. destruct (r_int R s 0 (lenZ (a :: r))). eauto. }
  unfold sample_leaf, param_of in *. destruct (lf_dist l) as [[a b|a b|a b|vs]|]; cbn [sample_distribution].
  - specialize (Hu s a b). destruct (r_uniform R s a b) as [r s1]. destruct Hu as [x Hx]. cbn in Hx. rewrite Hx. cbn. eauto.
  - destruct (Hlog a) as [la ->]. destruct (Hlog b) as [lb ->]. cbn [bind]. specialize (Hu s la lb).
    destruct (r_uniform R s la lb) as [r s1]. destruct Hu as [x Hx]. cbn in Hx. rewrite Hx. cbn.
    destruct (Hexp x) as [y ->]. cbn. eauto.
  - destruct (r_int R s a b). eauto.
  - apply Hs, Hc. reflexivity.
  - apply Hs, Hv. reflexivity.
Qed.
Lemma declares_nonempty v p x : declares o v p x -> (forall vs, x = Listed vs -> vs <> []) /\ (forall vs, x = Drawn (Choice vs) -> vs <> []).
Proof.
  induction 1 as [l Hl|d spec Hv|d k v p x Hd Hk H IH]; [| |exact IH]; split; intros vs E; try discriminate.
  - injection E as ->. exact Hl.
  - injection E as ->. inversion Hv. assumption.
Qed.
Lemma sample_leaves_total ls : forall d s, (forall vs, List.length vs = List.length ls -> exists d', assign_all d ls vs = Ok d') ->
  (forall l s, In l ls -> exists v s', sample_leaf R l s = Ok (v, s')) -> exists p s', sample_leaves R ls d s = Ok (p, s').
Proof.
  induction ls as [|l ls IH]; intros d s Ha Hs; [cbn; eauto|]. cbn [sample_leaves].
  destruct (Hs l s (or_introl eq_refl)) as (v & s1 & ->). cbn [bind].
  destruct (assign d (lf_path l) v) as [d1|e] eqn:E.
  - cbn [bind]. apply IH; [|intros; apply Hs; right; assumption]. intros vs Hl. destruct (Ha (v :: vs)) as [d' Hd']; [cbn; congruence|].
    cbn in Hd'. rewrite E in Hd'. eauto.
  - destruct (Ha (v :: map (fun _ => PNone) ls)) as [d' Hd']; [cbn; rewrite map_length; reflexivity|]. cbn in Hd'. rewrite E in Hd'. discriminate.
Qed.
Lemma random_total d ls : unique_keys (PDict d) -> from_dict sort o d = Ok ls ->
  (forall s a b, exists x, fst (r_uniform R s a b) = Ok x) -> (forall x, exists y, m_log R x = Ok y) -> (forall x, exists y, m_exp R x = Ok y) ->
  forall n i s, exists trials, random_trials sort R ls i n s = Ok trials.
Proof.
  intros Hu H Hun Hlog Hexp. destruct (from_dict_spec d ls Hu H) as (H1 & H2 & H3 & H4 & H5).
  induction n as [|n IH]; intros i s; [eexists; reflexivity|]. cbn [random_trials].
  destruct (sample_leaves_total ls [] s) as (p & s1 & ->).
  - intros vs Hl. destruct (assign_leaves ls vs H3 H4 H5 Hl) as (d' & E & _). eauto.
  - intros l s0 Hl. assert (Hde : declares o (PDict d) (lf_path l) (param_of l)) by (apply H1; eauto).
    apply declares_nonempty in Hde. apply sample_leaf_total; auto; apply Hde.
  - cbn [bind]. destruct (IH (i + 1) s1) as [ts ->]. eexists. reflexivity.
Qed.
End Rand.
End Search.

(* ------------------------------------------------------------------ the best trial *)
Lemma score_lt_below a b : score_lt a b = true <-> below a b.
Proof.
  split.
  - destruct a, b; cbn; try discriminate; intros; constructor. lia.
  - intros H. destruct H; cbn; try reflexivity. lia.
Qed.
Lemma cmp_counted m s : cmp_score m s = counted m s.
Proof. destruct s; reflexivity. Qed.
Lemma counted_num m s : counted m s <> Nan.
Proof. destruct s; cbn; destruct m; discriminate. Qed.
Lemma score_eq_iff a b : a <> Nan -> (score_eq a b = true <-> a = b).
Proof. destruct a, b; cbn; intros H; try congruence; split; try discriminate; try congruence; intros E; f_equal; try lia. injection E as ->. lia. Qed.
Lemma below_cases a b : a <> Nan -> b <> Nan -> below a b \/ a = b \/ below b a.
Proof.
  intros Ha Hb. destruct a as [| |x|], b as [| |y|]; try congruence; auto; try solve [left; constructor]; try solve [right; right; constructor].
  destruct (Z.lt_trichotomy x y) as [H|[->|H]]; [left; constructor; exact H|auto|right; right; constructor; exact H].
Qed.
Lemma below_trans a b c : below a b -> below b c -> below a c.
Proof. intros H1 H2. destruct H1; inversion H2; subst; constructor; lia. Qed.
Lemma below_irrefl a : ~ below a a.
Proof. intros H. inversion H; lia. Qed.

(* i, with score c, is at least as good as every (j, s) of the list *)
Definition dominates (m : bool) (c : score) (i : Z) (l : list (Z * score)) : Prop :=
  forall j s, In (j, s) l -> ~ beats m (counted m s) c /\ (counted m s = c -> i <= j).
Lemma beats_trans m a b c : beats m a b -> beats m b c -> beats m a c.
Proof. destruct m; cbn; intros; eapply below_trans; eassumption. Qed.
Lemma beats_irrefl m a : ~ beats m a a.
Proof. destruct m; apply below_irrefl. Qed.
Lemma beats_cases m a b : a <> Nan -> b <> Nan -> beats m a b \/ a = b \/ beats m b a.
Proof. intros Ha Hb. pose proof (below_cases a b Ha Hb). destruct m; cbn; tauto. Qed.

Lemma is_better_spec m c i b bi : c <> Nan -> b <> Nan -> is_better m c i (Some (b, bi)) = true <-> beats m c b \/ (c = b /\ i < bi).
Proof.
  intros Hc Hb. cbn. destruct (score_eq c b) eqn:E.
  - apply (score_eq_iff c b Hc) in E. subst. split; [intros; right; split; [reflexivity|lia]|].
    intros [H|[_ H]]; [destruct (beats_irrefl m b H)|lia].
  - assert (Hn : c <> b) by (intros ->; rewrite (proj2 (score_eq_iff b b Hb) eq_refl) in E; discriminate).
    destruct m; cbn; rewrite score_lt_below; split; auto; intros [H|[H _]]; congruence.
Qed.
Lemma search_spec m l : forall done c i, c <> Nan -> (exists s, In (i, s) done /\ counted m s = c) -> dominates m c i done ->
  exists c' i', search m l (Some (c, i)) = Some (c', i') /\ (exists s, In (i', s) (done ++ l) /\ counted m s = c') /\ dominates m c' i' (done ++ l).
Proof.
  induction l as [|[j s] l IH]; intros done c i Hc Hin Hd.
  - exists c, i. rewrite app_nil_r. auto.
  - cbn [search]. rewrite cmp_counted. pose proof (counted_num m s) as Hs. cbv zeta.
    replace (done ++ (j, s) :: l) with ((done ++ [(j, s)]) ++ l) by (rewrite <- app_assoc; reflexivity).
    destruct (is_better m (counted m s) j (Some (c, i))) eqn:E.
    + apply is_better_spec in E; auto. apply IH; [exact Hs|exists s; split; [apply in_or_app; right; left; reflexivity|reflexivity]|].
      intros k t Hk. apply in_app_or in Hk. destruct Hk as [Hk|[[= <- <-]|[]]].
      * destruct (Hd k t Hk) as [D1 D2]. split.
        -- intros Hb. destruct E as [E|[E _]]; [apply D1; eapply beats_trans; eassumption|rewrite E in Hb; contradiction].
        -- intros Et. destruct E as [E|[E Hlt]]; [rewrite <- Et in E; contradiction|]. rewrite E in Et. specialize (D2 Et). lia.
      * split; [apply beats_irrefl|lia].
    + assert (En : ~ (beats m (counted m s) c \/ counted m s = c /\ j < i)) by (rewrite <- is_better_spec by auto; congruence).
      apply IH; [exact Hc|destruct Hin as (t & Ht & Et); exists t; split; [apply in_or_app; left; exact Ht|exact Et]|].
      intros k t Hk. apply in_app_or in Hk. destruct Hk as [Hk|[[= <- <-]|[]]]; [apply Hd, Hk|].
      split; [tauto|]. intros Et. destruct (Z.le_gt_cases i j); [assumption|]. exfalso. apply En. right. split; [exact Et|lia].
Qed.
Lemma best_trial_spec m l : (l = [] -> best_trial m l = Err ValueError) /\
  (l <> [] -> exists i s, best_trial m l = Ok i /\ In (i, s) l /\
    forall j t, In (j, t) l -> ~ beats m (counted m t) (counted m s) /\ (counted m t = counted m s -> i <= j)).
Proof.
  split; [intros ->; reflexivity|]. intros Hl. destruct l as [|[j s] l]; [congruence|]. unfold best_trial. cbn [search is_better].
  rewrite cmp_counted. destruct (search_spec m l [(j, s)] (counted m s) j) as (c' & i' & E & (t & Ht & Et) & Hd).
  - apply counted_num.
  - exists s. split; [left; reflexivity|reflexivity].
  - intros k t [[= <- <-]|[]]. split; [apply beats_irrefl|lia].
  - rewrite E. exists i', t. split; [reflexivity|]. split; [exact Ht|]. rewrite Et. exact Hd.
Qed.
