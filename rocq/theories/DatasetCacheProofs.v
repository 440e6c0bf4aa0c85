(* Proofs about the dataset cache. *)
From Coq Require Import String.
From Verif Require Import Prelude ListFacts PyValue FsModel FsFacts DatasetCacheModel DatasetCacheSpec.
Local Open Scope list_scope.

(* ------------------------------------------------------------------------------- strings *)
Lemma append_assoc (a b c : string) : ((a ++ b) ++ c)%string = (a ++ (b ++ c))%string.
Proof. induction a; cbn; [reflexivity|]. f_equal; assumption. Qed.

Lemma append_inv_head (p a b : string) : (p ++ a)%string = (p ++ b)%string -> a = b.
Proof. induction p; cbn; [auto|]. intros H. injection H as H. auto. Qed.

Lemma append_nil_r (a : string) : (a ++ "")%string = a.
Proof. induction a; cbn; congruence. Qed.

Lemma append_length (a b : string) : String.length (a ++ b) = (String.length a + String.length b)%nat.
Proof. induction a; cbn; congruence. Qed.

Lemma append_inv_tail (s a b : string) : (a ++ s)%string = (b ++ s)%string -> a = b.
Proof.
  revert b. induction a as [|x a IH]; intros [|y b] H; cbn in *.
  - reflexivity.
  - exfalso. assert (Hl : String.length s = String.length (String y (b ++ s))) by (rewrite <- H; reflexivity).
    cbn in Hl. rewrite append_length in Hl. lia.
  - exfalso. assert (Hl : String.length s = String.length (String x (a ++ s))) by (rewrite H; reflexivity).
    cbn in Hl. rewrite append_length in Hl. lia.
  - injection H as -> H. f_equal. apply IH, H.
Qed.

(* ---------------------------------------------------------------------------- file names *)
Inductive tag := TX (tr : bool) | TY (tr : bool) | TE (tr : bool) | TM (tr : bool) (k : string)
               | TMeta | TLayout.
Definition part (tr : bool) : string := if tr then "train"%string else "test"%string.
Definition stem (t : tag) : string :=
  match t with
  | TX b => part b ++ "_X" | TY b => part b ++ "_y" | TE b => part b ++ "_edges"
  | TM b k => part b ++ "_mask_" ++ k | TMeta => "meta" | TLayout => "layout"
  end%string.
Definition ext_fits (t : tag) (e : string) : Prop :=
  match t with TM _ _ => e = ".npy"%string | TMeta | TLayout => e = ".json"%string | _ => True end.

Lemma stem_inj t t' e e' : ext_fits t e -> ext_fits t' e' ->
  (stem t ++ e)%string = (stem t' ++ e')%string -> t = t'.
Proof.
  intros He He' H.
  destruct t as [[]|[]|[]|[] k| |], t' as [[]|[]|[]|[] k'| |]; cbn in *; subst; cbn in H;
    try congruence.
  - injection H as H. apply (append_inv_tail ".npy") in H. congruence.
  - injection H as H. apply (append_inv_tail ".npy") in H. congruence.
Qed.

(* ------------------------------------------------------------------------- writing files *)
Section Storage.
Context {A : Type}.
Variable ext : A -> string.
Variable torn : exn.
Variable listing : fs (cfile A) -> path -> list path.
Variable U : list string.

Definition write_all (root : path) (l : list (string * cfile A)) : list (step (cfile A)) :=
  concat (map (fun p => write_whole (root ++ [fst p]) (snd p)) l).

Lemma write_all_app root a b : write_all root (a ++ b) = write_all root a ++ write_all root b.
Proof. unfold write_all. rewrite map_app, concat_app. reflexivity. Qed.

Lemma write_all_touches root l s p :
  In s (write_all root l) -> touches s p -> exists n, In n (map fst l) /\ p = root ++ [n].
Proof.
  unfold write_all. rewrite in_concat. intros (x & Hx & Hs). apply in_map_iff in Hx.
  destruct Hx as ([n v] & <- & Hin). cbn in Hs. intros Ht. exists n.
  split; [apply in_map_iff; exists (n, v); auto|].
  destruct Hs as [<-|[<-|[]]]; cbn in Ht; congruence.
Qed.

Lemma write_all_get root l f n v :
  NoDup (map fst l) -> In (n, v) l ->
  run (write_all root l) f (root ++ [n]) = Some (NFile (Whole v)).
Proof.
  revert f. induction l as [|[m w] r IH]; intros f Hnd Hin; [destruct Hin|].
  cbn in Hnd. inversion Hnd as [|? ? Hni Hnd']; subst.
  change (write_all root ((m, w) :: r)) with (write_whole (root ++ [m]) w ++ write_all root r).
  rewrite run_app. destruct Hin as [[= -> ->]|Hin].
  - rewrite run_untouched.
    + cbn. apply set_same.
    + intros s Hs Ht. destruct (write_all_touches _ _ _ _ Hs Ht) as (n' & Hn' & He).
      apply app_inv_head in He. injection He as <-. contradiction.
  - apply IH; assumption.
Qed.

(* the files of a dataset, in the order in which they are written *)
Definition arr_file (t : tag) (a : A) : tag * (string * cfile A) := (t, ((stem t ++ ext a)%string, CArr a)).
Definition split_files (tr : bool) (s : dsplit A) : list (tag * (string * cfile A)) :=
  [arr_file (TX tr) (ds_X s); arr_file (TY tr) (ds_y s)] ++
  match ds_edges s with None => [] | Some e => [arr_file (TE tr) e] end ++
  match ds_masks s with None => [] | Some ms => map (fun p => arr_file (TM tr (fst p)) (snd p)) ms end.
Definition info_of (tr : bool) (s : dsplit A) : split_info :=
  {| i_X := (part tr ++ "_X" ++ ext (ds_X s))%string;
     i_y := (part tr ++ "_y" ++ ext (ds_y s))%string;
     i_edges := match ds_edges s with None => None | Some e => Some (part tr ++ "_edges" ++ ext e)%string end;
     i_masks := match ds_masks s with
                | None => None
                | Some ms => Some (map (fun p => (fst p, (stem (TM tr (fst p)) ++ ext (snd p))%string)) ms)
                end |}.

Lemma save_masks_eq root tr ms :
  save_masks ext root (part tr) ms =
  (map (fun p => (fst p, (stem (TM tr (fst p)) ++ ext (snd p))%string)) ms,
   write_all root (map snd (map (fun p => arr_file (TM tr (fst p)) (snd p)) ms))).
Proof.
  induction ms as [|[k a] r IH]; [reflexivity|]. cbn [save_masks map fst snd].
  unfold save_array. rewrite IH. cbn. reflexivity.
Qed.

Lemma save_split_files_eq root tr s :
  save_split_files ext root (part tr) s =
  (info_of tr s, write_all root (map snd (split_files tr s))).
Proof.
  unfold save_split_files, split_files, info_of, save_array.
  destruct (ds_edges s) as [e|], (ds_masks s) as [ms|]; cbn [arr_file];
    try rewrite save_masks_eq; rewrite ?append_assoc; unfold write_all;
    rewrite ?map_app, ?concat_app; destruct tr; cbn; rewrite ?app_nil_r; reflexivity.
Qed.

Definition tail_files (d : dataset A) : list (tag * (string * cfile A)) :=
  [(TMeta, ("meta.json"%string, CMeta (mapping_to_jsonable (d_meta d))));
   (TLayout, ("layout.json"%string,
     CLayout {| lay_train := info_of true (d_train d);
                lay_test := match d_test d with None => None | Some t => Some (info_of false t) end |}))].
Definition all_files (d : dataset A) : list (tag * (string * cfile A)) :=
  split_files true (d_train d) ++
  match d_test d with None => [] | Some t => split_files false t end ++ tail_files d.

Lemma storage_save_eq root d :
  storage_save ext root d = SMkdir root :: write_all root (map snd (all_files d)).
Proof.
  unfold storage_save, all_files.
  change "train"%string with (part true). change "test"%string with (part false).
  rewrite save_split_files_eq.
  destruct (d_test d) as [t|] eqn:Et.
  - rewrite save_split_files_eq. rewrite !map_app, !write_all_app. unfold tail_files. rewrite Et.
    cbn [map snd]. unfold write_all at 3. cbn. reflexivity.
  - rewrite !map_app, !write_all_app. unfold tail_files. rewrite Et. cbn. reflexivity.
Qed.

(* the names written are pairwise different *)
Lemma all_files_nodup d : dataset_ok ext d -> NoDup (map fst (map snd (all_files d))).
Proof.
  intros [Htr Hte].
  assert (Hfit : forall t n v, In (t, (n, v)) (all_files d) -> exists e, ext_fits t e /\ n = (stem t ++ e)%string).
  { assert (Hs : forall tr s, split_ok ext s -> forall t n v, In (t, (n, v)) (split_files tr s) ->
      exists e, ext_fits t e /\ n = (stem t ++ e)%string).
    { intros tr s Hs t n v. unfold split_files. rewrite !in_app_iff. intros [Hi|[Hi|Hi]].
      - cbn in Hi. destruct Hi as [Hi|[Hi|[]]]; injection Hi as <- <- <-; eexists; (split; [exact I|reflexivity]).
      - destruct (ds_edges s) as [e|]; [|destruct Hi]. destruct Hi as [Hi|[]].
        injection Hi as <- <- <-. eexists; (split; [exact I|reflexivity]).
      - unfold split_ok in Hs. destruct (ds_masks s) as [ms|]; [|destruct Hi].
        apply in_map_iff in Hi. destruct Hi as ([k a] & Hi & Hin). injection Hi as <- <- <-.
        destruct Hs as [_ Hs]. exists (ext a). split; [cbn; eapply Hs; exact Hin|reflexivity]. }
    intros t n v. unfold all_files. rewrite !in_app_iff. intros [Hi|[Hi|Hi]].
    - eapply Hs; eassumption.
    - destruct (d_test d); [eapply Hs; eassumption|destruct Hi].
    - cbn in Hi. destruct Hi as [Hi|[Hi|[]]]; injection Hi as <- <- <-; exists ".json"%string; split; reflexivity. }
  assert (Htags : NoDup (map fst (all_files d))).
  { assert (Hs : forall tr s, split_ok ext s -> NoDup (map fst (split_files tr s)) /\
      forall t, In t (map fst (split_files tr s)) ->
        match t with TX b | TY b | TE b | TM b _ => b = tr | _ => False end).
    { intros tr s Hs. unfold split_files. rewrite !map_app. split.
      - assert (Hm : NoDup (map fst (match ds_masks s with None => [] | Some ms =>
            map (fun p => arr_file (TM tr (fst p)) (snd p)) ms end))).
        { unfold split_ok in Hs. destruct (ds_masks s) as [ms|]; [|constructor].
          rewrite map_map. cbn. destruct Hs as [Hn _]. clear - Hn.
          induction ms as [|[k a] r IH]; cbn in *; [constructor|].
          inversion Hn as [|? ? Hni Hn']; subst. constructor; [|apply IH, Hn'].
          rewrite in_map_iff. intros ([k' a'] & [= ->] & Hin). apply Hni, in_map_iff. eexists; split; [|exact Hin]. reflexivity. }
        cbn. constructor; [|constructor].
        + cbn. intros [Hx|Hx]; [discriminate|]. apply in_app_or in Hx. destruct Hx as [Hx|Hx].
          * destruct (ds_edges s); cbn in Hx; [destruct Hx as [Hx|[]]; discriminate|destruct Hx].
          * destruct (ds_masks s) as [ms|]; [|destruct Hx]. rewrite map_map in Hx.
            apply in_map_iff in Hx. destruct Hx as (? & Hx & _). discriminate.
        + intros Hx. apply in_app_or in Hx. destruct Hx as [Hx|Hx].
          * destruct (ds_edges s); cbn in Hx; [destruct Hx as [Hx|[]]; discriminate|destruct Hx].
          * destruct (ds_masks s) as [ms|]; [|destruct Hx]. rewrite map_map in Hx.
            apply in_map_iff in Hx. destruct Hx as (? & Hx & _). discriminate.
        + destruct (ds_edges s); cbn; [|exact Hm]. constructor; [|exact Hm].
          intros Hx. destruct (ds_masks s) as [ms|]; [|destruct Hx]. rewrite map_map in Hx.
          apply in_map_iff in Hx. destruct Hx as (? & Hx & _). discriminate.
      - intros t. rewrite !in_app_iff. intros [Hi|[Hi|Hi]].
        + cbn in Hi. destruct Hi as [<-|[<-|[]]]; reflexivity.
        + destruct (ds_edges s); cbn in Hi; [destruct Hi as [<-|[]]; reflexivity|destruct Hi].
        + destruct (ds_masks s) as [ms|]; [|destruct Hi]. rewrite map_map in Hi.
          apply in_map_iff in Hi. destruct Hi as (? & <- & _). reflexivity. }
    destruct (Hs true (d_train d) Htr) as [N1 B1].
    unfold all_files. rewrite !map_app.
    assert (Ht : NoDup (map fst (tail_files d))).
    { cbn. repeat constructor; cbn; intuition discriminate. }
    assert (N2 : NoDup (map fst (match d_test d with None => [] | Some t => split_files false t end)) /\
      forall t, In t (map fst (match d_test d with None => [] | Some t => split_files false t end)) ->
        match t with TX b | TY b | TE b | TM b _ => b = false | _ => False end).
    { destruct (d_test d) as [t|]; [apply Hs, Hte|]. split; [constructor|intros ? []]. }
    destruct N2 as [N2 B2].
    apply NoDup_app_iff. split; [exact N1|]. split.
    - apply NoDup_app_iff. split; [exact N2|]. split; [exact Ht|].
      intros x Hx Hy. apply B2 in Hx. cbn in Hy. destruct Hy as [<-|[<-|[]]]; exact Hx.
    - intros x Hx Hy. apply B1 in Hx. apply in_app_or in Hy. destruct Hy as [Hy|Hy].
      + apply B2 in Hy. destruct x; try contradiction; congruence.
      + cbn in Hy. destruct Hy as [<-|[<-|[]]]; exact Hx. }
  revert Hfit Htags. generalize (all_files d). clear. intros l.
  induction l as [|[t [n v]] r IH]; cbn; intros Hfit Hn; [constructor|].
  inversion Hn as [|? ? Hni Hn']; subst. constructor.
  - intros Hx. apply Hni. rewrite map_map in Hx. apply in_map_iff in Hx.
    destruct Hx as ([t' [n' v']] & He & Hin). cbn in He. subst n'.
    destruct (Hfit t n v) as (e & F1 & E1); [auto|].
    destruct (Hfit t' n v') as (e' & F2 & E2); [auto|].
    assert (t = t') as ->.
    { eapply stem_inj; [exact F1|exact F2|congruence]. }
    apply in_map_iff. exists (t', (n, v')). auto.
  - apply IH; [|exact Hn']. intros; eapply Hfit; eauto.
Qed.

(* state in which every file of d is complete *)
Definition has_files (root : path) (d : dataset A) (f : fs (cfile A)) : Prop :=
  forall t n v, In (t, (n, v)) (all_files d) -> f (root ++ [n]) = Some (NFile (Whole v)).

Definition stored_form (d : dataset A) : dataset A :=
  {| d_train := d_train d; d_test := d_test d; d_meta := mapping_to_jsonable (d_meta d) |}.

Lemma load_masks_ok root tr s f ms :
  (forall t n v, In (t, (n, v)) (split_files tr s) -> f (root ++ [n]) = Some (NFile (Whole v))) ->
  ds_masks s = Some ms -> forall l, incl l ms ->
  load_masks torn f root (map (fun p => (fst p, (stem (TM tr (fst p)) ++ ext (snd p))%string)) l) = Ok l.
Proof.
  intros Hf Hm l. induction l as [|[k a] r IH]; intros Hi; [reflexivity|].
  cbn [map load_masks fst snd].
  assert (Ha : load_array torn f root (stem (TM tr k) ++ ext a)%string = Ok a).
  { unfold load_array, read_file.
    rewrite (Hf (TM tr k) (stem (TM tr k) ++ ext a)%string (CArr a)); [reflexivity|].
    unfold split_files. rewrite Hm. apply in_or_app. right. apply in_or_app. right.
    apply in_map_iff. exists (k, a). split; [reflexivity|]. apply Hi. left; reflexivity. }
  rewrite Ha. cbn [bind]. rewrite IH; [reflexivity|]. intros x Hx. apply Hi. right; exact Hx.
Qed.

Lemma load_split_ok root tr s f :
  (forall t n v, In (t, (n, v)) (split_files tr s) -> f (root ++ [n]) = Some (NFile (Whole v))) ->
  load_split_files torn f root (info_of tr s) = Ok s.
Proof.
  intros Hf. unfold load_split_files, info_of. cbn [i_X i_y i_edges i_masks].
  assert (HX : load_array torn f root (part tr ++ "_X" ++ ext (ds_X s))%string = Ok (ds_X s)).
  { unfold load_array, read_file. rewrite <- append_assoc.
    rewrite (Hf (TX tr) _ (CArr (ds_X s))); [reflexivity|]. left; reflexivity. }
  assert (Hy : load_array torn f root (part tr ++ "_y" ++ ext (ds_y s))%string = Ok (ds_y s)).
  { unfold load_array, read_file. rewrite <- append_assoc.
    rewrite (Hf (TY tr) _ (CArr (ds_y s))); [reflexivity|]. right; left; reflexivity. }
  rewrite HX, Hy. cbn [bind].
  assert (HE : (match (match ds_edges s with None => None | Some e => Some (part tr ++ "_edges" ++ ext e)%string end) with
     | None => Ok None | Some n => do a <- load_array torn f root n; Ok (Some a) end) = Ok (ds_edges s)).
  { destruct (ds_edges s) as [e|] eqn:Ee; [|reflexivity].
    assert (H : load_array torn f root (part tr ++ "_edges" ++ ext e)%string = Ok e).
    { unfold load_array, read_file. rewrite <- append_assoc.
      rewrite (Hf (TE tr) _ (CArr e)); [reflexivity|].
      unfold split_files. rewrite Ee. apply in_or_app. right. left. reflexivity. }
    rewrite H. reflexivity. }
  rewrite HE. cbn [bind].
  destruct (ds_masks s) as [ms|] eqn:Em.
  - rewrite (load_masks_ok root tr s f ms Hf Em ms (incl_refl _)). cbn. destruct s; cbn in *; subst; reflexivity.
  - cbn. destruct s; cbn in *; subst; reflexivity.
Qed.

Lemma load_has_files root d f : has_files root d f -> storage_load torn f root = Ok (stored_form d).
Proof.
  intros Hf. unfold storage_load, read_file, layout_path, meta_path.
  assert (HL : In (TLayout, ("layout.json"%string,
     CLayout {| lay_train := info_of true (d_train d);
                lay_test := match d_test d with None => None | Some t => Some (info_of false t) end |}))
     (all_files d)).
  { unfold all_files. apply in_or_app. right. apply in_or_app. right. right. left. reflexivity. }
  assert (HM : In (TMeta, ("meta.json"%string, CMeta (mapping_to_jsonable (d_meta d)))) (all_files d)).
  { unfold all_files. apply in_or_app. right. apply in_or_app. right. left. reflexivity. }
  rewrite (Hf _ _ _ HL). cbn [bind lay_train lay_test].
  rewrite load_split_ok.
  2:{ intros t n v Hi. apply (Hf t n v). unfold all_files. apply in_or_app. auto. }
  cbn [bind].
  destruct (d_test d) as [t|] eqn:Et.
  - rewrite load_split_ok.
    2:{ intros t0 n v Hi. apply (Hf t0 n v). unfold all_files. rewrite Et.
        apply in_or_app. right. apply in_or_app. auto. }
    cbn [bind]. rewrite (Hf _ _ _ HM). cbn. unfold stored_form. rewrite Et. reflexivity.
  - cbn [bind]. rewrite (Hf _ _ _ HM). cbn. unfold stored_form. rewrite Et. reflexivity.
Qed.

Lemma save_has_files root d f : dataset_ok ext d -> has_files root d (run (storage_save ext root d) f).
Proof.
  intros Hok t n v Hin. rewrite storage_save_eq.
  change (run (SMkdir root :: ?l) f) with (run l (exec f (SMkdir root))).
  apply write_all_get; [apply all_files_nodup, Hok|]. apply in_map_iff. exists (t, (n, v)). auto.
Qed.

Lemma storage_round_trip root d f : dataset_ok ext d ->
  storage_load torn (run (storage_save ext root d) f) root = Ok (stored_form d).
Proof. intros H. apply load_has_files, save_has_files, H. Qed.

(* ------------------------------------------------------------------------ paths of an entry *)
Record entry_ok (e : entry) : Prop := {
  ok_ml : e_manifest e <> e_lock e;
  ok_pm : e_processed e <> e_manifest e;
  ok_pl : e_processed e <> e_lock e;
  ok_cm : forall n, e_processed e ++ [n] <> e_manifest e;
  ok_cl : forall n, e_processed e ++ [n] <> e_lock e
}.

Lemma entry_of_ok root fp : entry_ok (entry_of root fp).
Proof.
  constructor; cbn; try intros n H; try intros H; rewrite <- ?app_assoc in H;
    apply app_inv_head in H; cbn in H; discriminate.
Qed.

(* what a load without download sees *)
Definition cached_value (f : fs (cfile A)) (e : entry) : result (dataset A) :=
  if is_cached f e then
    match storage_load torn f (e_processed e) with
    | Ok d => Ok d
    | Err ManifestError => Err DatasetNotCachedError
    | Err x => Err x
    end
  else Err DatasetNotCachedError.

Lemma offline_value e p f :
  value (load_dataset ext torn listing e p false false) f = cached_value f e.
Proof.
  unfold value, load_dataset, cached_value, pbind, pread. cbn [negb andb].
  destruct (is_cached f e) eqn:Ec; [|reflexivity].
  change (run [] f) with f. unfold load_or_purge.
  destruct (storage_load torn f (e_processed e)) as [d|x]; [reflexivity|].
  destruct x; try reflexivity.
  unfold pbind, purge, rmtree, psteps, pret, pbind. destruct (f (e_processed e)) as [[|]|]; reflexivity.
Qed.

(* ------------------------------------------------------------------------------ deletion *)
Definition shrinks (e : entry) (g f : fs (cfile A)) : Prop :=
  (forall n, g (e_processed e ++ [n]) = f (e_processed e ++ [n]) \/ g (e_processed e ++ [n]) = None) /\
  (g (e_processed e) = f (e_processed e) \/ g (e_processed e) = None) /\
  (g (e_manifest e) = f (e_manifest e) \/ g (e_manifest e) = None).

Lemma shrinks_refl e f : shrinks e f f.
Proof. repeat split; auto. Qed.
Lemma shrinks_trans e h g f : shrinks e h g -> shrinks e g f -> shrinks e h f.
Proof.
  intros (A1 & A2 & A3) (B1 & B2 & B3). repeat split.
  - intros n. destruct (A1 n) as [->|]; auto.
  - destruct A2 as [->|]; auto.
  - destruct A3 as [->|]; auto.
Qed.

Definition removing (e : entry) (s : step (cfile A)) : Prop :=
  (exists p, s = SUnlink p) \/ (s = STorn (e_lock e) \/ exists v, s = SWrite (e_lock e) v).

Lemma removing_shrinks e s f : entry_ok e -> removing e s -> shrinks e (exec f s) f.
Proof.
  intros He [[p ->]|[->|[v ->]]]; cbn.
  - repeat split; intros; unfold set; destruct (path_eqb _ _); auto.
  - destruct He. repeat split; intros; left; apply set_other; auto.
  - destruct He. repeat split; intros; left; apply set_other; auto.
Qed.

Lemma removing_run e l f : entry_ok e -> (forall s, In s l -> removing e s) -> shrinks e (run l f) f.
Proof.
  intros He. revert f. induction l as [|s r IH]; intros f H; [apply shrinks_refl|].
  eapply shrinks_trans.
  - apply (IH (exec f s)). intros t Ht. apply H. right; exact Ht.
  - apply removing_shrinks; [exact He|]. apply H. left; reflexivity.
Qed.

Lemma load_array_mono (g f : fs (cfile A)) root n a :
  (forall n, g (root ++ [n]) = f (root ++ [n]) \/ g (root ++ [n]) = None) ->
  load_array torn g root n = Ok a -> load_array torn f root n = Ok a.
Proof.
  intros H. unfold load_array, read_file. destruct (H n) as [->| ->]; [auto|discriminate].
Qed.

Lemma load_masks_mono (g f : fs (cfile A)) root l m :
  (forall n, g (root ++ [n]) = f (root ++ [n]) \/ g (root ++ [n]) = None) ->
  load_masks torn g root l = Ok m -> load_masks torn f root l = Ok m.
Proof.
  intros H. revert m. induction l as [|[k n] r IH]; intros m; cbn; [auto|].
  destruct (load_array torn g root n) as [a|] eqn:E; cbn; [|discriminate].
  rewrite (load_array_mono g f root n a H E). cbn.
  destruct (load_masks torn g root r) as [t|]; cbn; [|discriminate].
  rewrite (IH t eq_refl). cbn. auto.
Qed.

Lemma load_split_mono (g f : fs (cfile A)) root i s :
  (forall n, g (root ++ [n]) = f (root ++ [n]) \/ g (root ++ [n]) = None) ->
  load_split_files torn g root i = Ok s -> load_split_files torn f root i = Ok s.
Proof.
  intros H. unfold load_split_files.
  destruct (load_array torn g root (i_X i)) as [x|] eqn:E1; cbn; [|discriminate].
  rewrite (load_array_mono _ _ _ _ _ H E1). cbn.
  destruct (load_array torn g root (i_y i)) as [y|] eqn:E2; cbn; [|discriminate].
  rewrite (load_array_mono _ _ _ _ _ H E2). cbn.
  destruct (i_edges i) as [n|].
  - destruct (load_array torn g root n) as [z|] eqn:E3; cbn; [|discriminate].
    rewrite (load_array_mono _ _ _ _ _ H E3). cbn.
    destruct (i_masks i) as [l|]; [|auto].
    destruct (load_masks torn g root l) as [m|] eqn:E4; cbn; [|discriminate].
    rewrite (load_masks_mono _ _ _ _ _ H E4). auto.
  - cbn. destruct (i_masks i) as [l|]; [|auto].
    destruct (load_masks torn g root l) as [m|] eqn:E4; cbn; [|discriminate].
    rewrite (load_masks_mono _ _ _ _ _ H E4). auto.
Qed.

Lemma storage_load_mono (g f : fs (cfile A)) root d :
  (forall n, g (root ++ [n]) = f (root ++ [n]) \/ g (root ++ [n]) = None) ->
  storage_load torn g root = Ok d -> storage_load torn f root = Ok d.
Proof.
  intros H. unfold storage_load, read_file, layout_path, meta_path.
  destruct (H "layout.json"%string) as [->| ->]; [|discriminate].
  destruct (f (root ++ ["layout.json"%string])) as [[|[|v]]|]; cbn; try discriminate.
  destruct v as [| |l| |]; try discriminate.
  destruct (load_split_files torn g root (lay_train l)) as [tr|] eqn:E1; cbn; [|discriminate].
  rewrite (load_split_mono _ _ _ _ _ H E1). cbn.
  destruct (lay_test l) as [i|].
  - destruct (load_split_files torn g root i) as [te|] eqn:E2; cbn; [|discriminate].
    rewrite (load_split_mono _ _ _ _ _ H E2). cbn.
    destruct (H "meta.json"%string) as [->| ->]; [auto|discriminate].
  - cbn. destruct (H "meta.json"%string) as [->| ->]; [auto|discriminate].
Qed.

Lemma shrinks_cached e g f d :
  shrinks e g f -> cached_value g e = Ok d -> cached_value f e = Ok d.
Proof.
  intros (H1 & H2 & H3). unfold cached_value, is_cached.
  destruct (g (e_processed e)) as [[|]|] eqn:Ep; try discriminate.
  destruct H2 as [H2|H2]; [|discriminate]. rewrite <- H2.
  destruct (g (e_manifest e)) as [[|]|] eqn:Em; try discriminate.
  destruct H3 as [H3|H3]; [|discriminate]. rewrite <- H3.
  destruct (storage_load torn g (e_processed e)) as [x|x] eqn:El.
  - rewrite (storage_load_mono _ _ _ _ H1 El). auto.
  - destruct x; discriminate.
Qed.

(* -------------------------------------------------------------------------------- store *)
Definition del_steps (f : fs (cfile A)) (e : entry) : list (step (cfile A)) :=
  match f (e_processed e) with
  | Some NDir => map SUnlink (listing f (e_processed e)) ++ [SUnlink (e_processed e)]
  | _ => []
  end.
Definition put_steps (e : entry) (d : dataset A) : list (step (cfile A)) :=
  storage_save ext (e_processed e) d ++ write_whole (e_manifest e) CManifest.

Lemma store_eq e d f :
  store ext listing e d f = (Ok tt, del_steps f e ++ put_steps e d).
Proof.
  unfold store, pbind, pread, exists_path, rmtree, psteps, pret, del_steps, put_steps.
  change (run [] f) with f.
  destruct (f (e_processed e)) as [[|x]|] eqn:E; cbn [app].
  - rewrite E. reflexivity.
  - rewrite E. reflexivity.
  - reflexivity.
Qed.

Lemma unlinks_in (l : list path) f p : In p l -> run (map (@SUnlink (cfile A)) l) f p = None.
Proof.
  revert f. induction l as [|q r IH]; intros f H; [destruct H|].
  cbn [map]. change (run (SUnlink q :: ?r) f) with (run r (exec f (SUnlink q))).
  destruct (in_dec (list_eq_dec string_dec) p r) as [Hi|Hi]; [apply IH, Hi|].
  destruct H as [->|H]; [|contradiction].
  rewrite run_untouched.
  - cbn. apply set_same.
  - intros s Hs Ht. apply in_map_iff in Hs. destruct Hs as (y & <- & Hy). cbn in Ht. subst y. contradiction.
Qed.

Lemma unlinks_none (l : list path) f p : f p = None -> run (map (@SUnlink (cfile A)) l) f p = None.
Proof.
  revert f. induction l as [|q r IH]; intros f H; [exact H|].
  cbn [map]. change (run (SUnlink q :: ?r) f) with (run r (exec f (SUnlink q))).
  apply IH. cbn. unfold set. destruct (path_eqb p q); auto.
Qed.

Lemma del_steps_removing f e s : In s (del_steps f e) -> removing e s.
Proof.
  unfold del_steps. destruct (f (e_processed e)) as [[|]|]; try (intros []).
  intros H. left. apply in_app_or in H. destruct H as [H|[<-|[]]].
  - apply in_map_iff in H. destruct H as (p & <- & _). eauto.
  - eauto.
Qed.

Lemma del_steps_touch f e s p : listing_ok U listing -> In s (del_steps f e) -> touches s p ->
  p = e_processed e \/ exists n, p = e_processed e ++ [n].
Proof.
  intros Hl. unfold del_steps. destruct (f (e_processed e)) as [[|]|]; try (intros []).
  intros H Ht. apply in_app_or in H. destruct H as [H|[<-|[]]].
  - apply in_map_iff in H. destruct H as (q & <- & Hq). cbn in Ht. subst q.
    right. apply (proj1 (Hl f (e_processed e))), Hq.
  - cbn in Ht. auto.
Qed.

Lemma del_steps_empty f e : listing_ok U listing -> entry_state U f e ->
  run (del_steps f e) f (e_processed e) = None /\
  forall n, run (del_steps f e) f (e_processed e ++ [n]) = None.
Proof.
  intros Hl [Hd HU]. unfold del_steps. destruct Hd as [Hd|[Hd Hn]]; rewrite Hd.
  - rewrite run_app. split.
    + cbn. apply set_same.
    + intros n. cbn. rewrite set_other by apply app_neq_dir.
      destruct (f (e_processed e ++ [n])) eqn:E.
      * apply unlinks_in. apply (proj2 (Hl f (e_processed e)) HU). congruence.
      * apply unlinks_none, E.
  - cbn. auto.
Qed.

Lemma put_steps_touch e d s p : In s (put_steps e d) -> touches s p ->
  p = e_processed e \/ (exists n, p = e_processed e ++ [n]) \/ p = e_manifest e.
Proof.
  unfold put_steps. rewrite storage_save_eq. intros H Ht. apply in_app_or in H.
  destruct H as [[<-|H]|H].
  - cbn in Ht; auto.
  - destruct (write_all_touches _ _ _ _ H Ht) as (n & _ & ->). eauto.
  - cbn in H. destruct H as [<-|[<-|[]]]; cbn in Ht; auto.
Qed.

Definition data_files (d : dataset A) : list (string * cfile A) :=
  map snd (split_files true (d_train d) ++
    match d_test d with None => [] | Some t => split_files false t end ++
    [(TMeta, ("meta.json"%string, CMeta (mapping_to_jsonable (d_meta d))))]).
Definition layout_of (d : dataset A) : layout :=
  {| lay_train := info_of true (d_train d);
     lay_test := match d_test d with None => None | Some t => Some (info_of false t) end |}.

Lemma all_files_split d :
  map snd (all_files d) = data_files d ++ [("layout.json"%string, CLayout (layout_of d))].
Proof.
  unfold all_files, data_files, tail_files. rewrite !map_app. cbn [map snd].
  rewrite <- !app_assoc. reflexivity.
Qed.

Lemma put_steps_eq e d :
  put_steps e d =
  (SMkdir (e_processed e) :: write_all (e_processed e) (data_files d)) ++
  [STorn (layout_path (e_processed e)); SWrite (layout_path (e_processed e)) (CLayout (layout_of d))] ++
  write_whole (e_manifest e) CManifest.
Proof.
  unfold put_steps. rewrite storage_save_eq, all_files_split, write_all_app.
  cbn [app]. rewrite <- app_assoc. reflexivity.
Qed.

Definition incomplete (f : fs (cfile A)) (e : entry) : Prop :=
  f (layout_path (e_processed e)) = None \/ f (layout_path (e_processed e)) = Some (NFile Torn).

Lemma crash_cons k (x : step (cfile A)) l f : crash (S k) (x :: l) f = crash k l (exec f x).
Proof. reflexivity. Qed.

(* every crash point of writing a dataset into an empty directory *)
Lemma put_crash e d f k :
  entry_ok e -> dataset_ok ext d ->
  f (e_processed e) = None -> (forall n, f (e_processed e ++ [n]) = None) ->
  let g := crash k (put_steps e d) f in
  dir_ok g (e_processed e) /\ g (e_lock e) = f (e_lock e) /\
  ((incomplete g e /\ g (e_manifest e) = f (e_manifest e)) \/
   (has_files (e_processed e) d g /\ g (e_processed e) = Some NDir)) /\
  ((length (put_steps e d) <= k)%nat ->
     has_files (e_processed e) d g /\ g (e_processed e) = Some NDir /\
     exists x, g (e_manifest e) = Some (NFile x)).
Proof.
  intros He Hok Hp Hn g.
  assert (Hlock : g (e_lock e) = f (e_lock e)).
  { apply crash_untouched. intros s Hs Ht.
    destruct (put_steps_touch _ _ _ _ Hs Ht) as [E|[[n E]|E]]; destruct He; congruence. }
  assert (Hdir : k <> 0%nat -> g (e_processed e) = Some NDir).
  { intros Hk. subst g. destruct k as [|k]; [congruence|]. rewrite put_steps_eq.
    cbn [app]. rewrite crash_cons.
    rewrite crash_untouched; [cbn; rewrite Hp; apply set_same|].
    intros s Hs Ht. apply in_app_or in Hs. destruct Hs as [Hs|Hs].
    - destruct (write_all_touches _ _ _ _ Hs Ht) as (n & _ & E). symmetry in E. exact (app_neq_dir _ _ E).
    - cbn in Hs. destruct Hs as [<-|[<-|[<-|[<-|[]]]]]; cbn in Ht; try exact (app_neq_dir _ _ Ht);
        destruct He; congruence. }
  assert (Hdirok : dir_ok g (e_processed e)).
  { destruct k as [|k]; [right; split; assumption|left; apply Hdir; discriminate]. }
  split; [exact Hdirok|]. split; [exact Hlock|].
  set (a := SMkdir (e_processed e) :: write_all (e_processed e) (data_files d)).
  assert (Hsplit : put_steps e d = storage_save ext (e_processed e) d ++ write_whole (e_manifest e) CManifest)
    by reflexivity.
  assert (Hlen : length (storage_save ext (e_processed e) d) = (length a + 2)%nat).
  { rewrite storage_save_eq, all_files_split, write_all_app. cbn [length]. rewrite app_length. cbn.
    unfold a. cbn. lia. }
  assert (Hfull : (length (storage_save ext (e_processed e) d) <= k)%nat ->
            has_files (e_processed e) d g).
  { intros Hk. unfold g. rewrite Hsplit, crash_app.
    replace (k <? _)%nat with false by (symmetry; apply Nat.ltb_ge; exact Hk).
    intros t n v Hin. rewrite crash_untouched.
    - apply (save_has_files (e_processed e) d f Hok t n v Hin).
    - cbn. intros s [<-|[<-|[]]]; cbn; intros E; destruct He; symmetry in E; eapply ok_cm0; exact E. }
  split.
  - destruct (Nat.leb_spec (length (storage_save ext (e_processed e) d)) k) as [Hk|Hk].
    + right. split; [apply Hfull, Hk|]. apply Hdir. rewrite Hlen in Hk. lia.
    + left. rewrite Hlen in Hk. unfold g. rewrite put_steps_eq. fold a. rewrite crash_app.
      assert (Ha : forall j, crash j a f (layout_path (e_processed e)) = None /\
                             crash j a f (e_manifest e) = f (e_manifest e)).
      { intros j. split.
        - rewrite crash_untouched; [apply Hn|]. intros s Hs Ht. destruct Hs as [<-|Hs].
          + cbn in Ht. symmetry in Ht. exact (app_neq_dir _ _ Ht).
          + destruct (write_all_touches _ _ _ _ Hs Ht) as (n & Hin & E).
            apply app_inv_head in E. injection E as <-.
            pose proof (all_files_nodup d Hok) as Hnd. rewrite all_files_split, map_app in Hnd.
            apply NoDup_app_iff in Hnd. destruct Hnd as (_ & _ & Hd). apply (Hd _ Hin). left; reflexivity.
        - apply crash_untouched. intros s Hs Ht. destruct Hs as [<-|Hs].
          + cbn in Ht. destruct He; congruence.
          + destruct (write_all_touches _ _ _ _ Hs Ht) as (n & Hin & E). destruct He.
            symmetry in E. exact (ok_cm0 _ E). }
      destruct (Nat.ltb_spec k (length a)) as [Hka|Hka].
      * split; [left; apply Ha|apply Ha].
      * pose proof (Ha (length a)) as [Hl Hm]. rewrite crash_all in Hl, Hm by lia.
        destruct (k - length a)%nat as [|[|j]] eqn:Ej; [| |lia].
        -- cbn. split; [left; exact Hl|exact Hm].
        -- cbn. split; [right; apply set_same|]. rewrite set_other; [exact Hm|].
           destruct He. intros E. symmetry in E. exact (ok_cm0 _ E).
  - intros Hk.
    assert (Hk2 : (length (storage_save ext (e_processed e) d) <= k)%nat).
    { rewrite Hsplit, app_length in Hk. lia. }
    split; [apply Hfull, Hk2|]. split; [apply Hdir; rewrite Hlen in Hk2; lia|].
    exists (Whole CManifest). unfold g. rewrite crash_all by exact Hk. rewrite Hsplit, run_app. cbn.
    apply set_same.
Qed.

Lemma incomplete_not_ok f e : incomplete f e ->
  storage_load torn f (e_processed e) = Err FileNotFoundError \/
  storage_load torn f (e_processed e) = Err JSONDecodeError.
Proof.
  unfold incomplete, storage_load, read_file. intros [->| ->]; cbn; auto.
Qed.

(* every crash point of replacing an entry *)
Lemma store_crash e d f k :
  entry_ok e -> dataset_ok ext d -> listing_ok U listing -> entry_state U f e ->
  let t := del_steps f e ++ put_steps e d in
  let g := crash k t f in
  dir_ok g (e_processed e) /\ g (e_lock e) = f (e_lock e) /\
  (shrinks e g f \/ (incomplete g e /\ g (e_manifest e) = f (e_manifest e)) \/
   (has_files (e_processed e) d g /\ g (e_processed e) = Some NDir)) /\
  ((length t <= k)%nat ->
     has_files (e_processed e) d g /\ g (e_processed e) = Some NDir /\
     exists x, g (e_manifest e) = Some (NFile x)).
Proof.
  intros He Hok Hl Hd t g. unfold g, t. rewrite crash_app.
  destruct (Nat.ltb_spec k (length (del_steps f e))) as [Hk|Hk].
  - assert (Hlk : crash k (del_steps f e) f (e_lock e) = f (e_lock e)).
    { apply crash_untouched. intros s Hs Ht.
      destruct (del_steps_touch _ _ _ _ Hl Hs Ht) as [E|[n E]]; destruct He; [congruence|].
      symmetry in E. exact (ok_cl0 _ E). }
    split.
    { left. unfold del_steps in *. destruct (f (e_processed e)) as [[|]|] eqn:Ep; try (cbn in Hk; lia).
      rewrite crash_app. rewrite app_length in Hk. cbn in Hk.
      destruct (Nat.ltb_spec k (length (map (@SUnlink (cfile A)) (listing f (e_processed e))))) as [Hk2|Hk2].
      - rewrite crash_untouched; [exact Ep|]. intros s Hs Ht. apply in_map_iff in Hs.
        destruct Hs as (q & <- & Hq). cbn in Ht. subst q.
        destruct (proj1 (Hl f (e_processed e)) _ Hq) as [n E]. symmetry in E. exact (app_neq_dir _ _ E).
      - replace (k - _)%nat with 0%nat by lia. cbn.
        rewrite run_untouched; [exact Ep|]. intros s Hs Ht. apply in_map_iff in Hs.
        destruct Hs as (q & <- & Hq). cbn in Ht. subst q.
        destruct (proj1 (Hl f (e_processed e)) _ Hq) as [n E]. symmetry in E. exact (app_neq_dir _ _ E). }
    split; [exact Hlk|]. split.
    + left. apply removing_run; [exact He|]. intros s Hs. eapply del_steps_removing.
      rewrite <- (firstn_skipn k (del_steps f e)). apply in_or_app. left. exact Hs.
    + rewrite app_length. intros Hc. lia.
  - destruct (del_steps_empty f e Hl Hd) as [E1 E2].
    assert (Hm : run (del_steps f e) f (e_manifest e) = f (e_manifest e)).
    { apply run_untouched. intros s Hs Ht.
      destruct (del_steps_touch _ _ _ _ Hl Hs Ht) as [E|[n E]]; destruct He; [congruence|].
      symmetry in E. exact (ok_cm0 _ E). }
    assert (Hlk : run (del_steps f e) f (e_lock e) = f (e_lock e)).
    { apply run_untouched. intros s Hs Ht.
      destruct (del_steps_touch _ _ _ _ Hl Hs Ht) as [E|[n E]]; destruct He; [congruence|].
      symmetry in E. exact (ok_cl0 _ E). }
    destruct (put_crash e d (run (del_steps f e) f) (k - length (del_steps f e)) He Hok E1 E2)
      as (P1 & P2 & P3 & P4).
    split; [exact P1|]. split; [congruence|]. split.
    + right. destruct P3 as [[P3 P3']|P3]; [left; split; [exact P3|congruence]|right; exact P3].
    + rewrite app_length. intros Hc. apply P4. lia.
Qed.

Definition lock_steps (e : entry) : list (step (cfile A)) := write_whole (e_lock e) CLock.
Definition fetch_out (f : fs (cfile A)) (e : entry) (d : dataset A)
  : result (dataset A) * list (step (cfile A)) :=
  if exists_path f (e_lock e) then (Err FileExistsError, [SUnlink (e_lock e)])
  else (Ok d, lock_steps e ++ (del_steps (run (lock_steps e) f) e ++ put_steps e d) ++ [SUnlink (e_lock e)]).
Definition purge_steps (f : fs (cfile A)) (e : entry) : list (step (cfile A)) :=
  del_steps f e ++ [SUnlink (e_manifest e)].
Definition load_out (f : fs (cfile A)) (e : entry) (d : dataset A) (force : bool)
  : result (dataset A) * list (step (cfile A)) :=
  if negb force && is_cached f e then
    match storage_load torn f (e_processed e) with
    | Ok x => (Ok x, [])
    | Err ManifestError =>
        let '(r, t) := fetch_out (run (purge_steps f e) f) e d in (r, purge_steps f e ++ t)
    | Err x => (Err x, [])
    end
  else fetch_out f e d.

Lemma lock_untouched e f p : p <> e_lock e -> run (lock_steps e) f p = f p.
Proof.
  intros H. apply run_untouched. cbn. intros s [<-|[<-|[]]]; cbn; congruence.
Qed.

Lemma is_cached_lock e f : entry_ok e -> is_cached (run (lock_steps e) f) e = is_cached f e.
Proof. intros []. unfold is_cached. rewrite !lock_untouched by auto. reflexivity. Qed.

Lemma download_eq e d force f : entry_ok e -> negb force && is_cached f e = false ->
  download_and_store ext torn listing e (Ok d) force f = fetch_out f e d.
Proof.
  intros He Hc. unfold download_and_store, with_lock, pfinally, fetch_out.
  unfold pbind at 1. unfold pread at 1. change (run [] f) with f. rewrite Hc. cbn [app].
  destruct (exists_path f (e_lock e)) eqn:Ex; [reflexivity|].
  unfold pbind at 1. unfold psteps at 1. fold (lock_steps e).
  unfold pbind at 1. unfold pread at 1. change (run [] (run (lock_steps e) f)) with (run (lock_steps e) f).
  rewrite is_cached_lock by exact He. rewrite Hc.
  unfold pbind at 1. unfold plift. change (run [] (run (lock_steps e) f)) with (run (lock_steps e) f).
  unfold pbind at 1. rewrite store_eq. cbn [pret app]. unfold pret.
  rewrite !app_nil_r, <- app_assoc. reflexivity.
Qed.

Lemma load_or_purge_eq e f :
  load_or_purge torn listing e f =
  match storage_load torn f (e_processed e) with
  | Ok d => (Ok (Some d), [])
  | Err ManifestError => (Ok None, purge_steps f e)
  | Err x => (Err x, [])
  end.
Proof.
  unfold load_or_purge. destruct (storage_load torn f (e_processed e)) as [d|x]; [reflexivity|].
  destruct x; try reflexivity.
  unfold purge, rmtree, pbind, psteps, pret, purge_steps, del_steps.
  destruct (f (e_processed e)) as [[|]|]; rewrite ?app_nil_r; reflexivity.
Qed.

Lemma purge_not_cached e f : is_cached (run (purge_steps f e) f) e = false.
Proof.
  unfold is_cached, purge_steps. rewrite run_app. cbn. rewrite set_same.
  destruct (set _ _ _ _) as [[|]|]; reflexivity.
Qed.

Lemma load_eq e d force f : entry_ok e ->
  load_dataset ext torn listing e (Ok d) true force f = load_out f e d force.
Proof.
  intros He. unfold load_dataset, load_out. unfold pbind at 1. unfold pread at 1.
  change (run [] f) with f. cbn [negb].
  destruct (negb force && is_cached f e) eqn:Hc.
  - unfold pbind at 1. rewrite load_or_purge_eq.
    destruct (storage_load torn f (e_processed e)) as [x|x]; [reflexivity|].
    destruct x; try reflexivity.
    rewrite download_eq.
    + destruct (fetch_out (run (purge_steps f e) f) e d). reflexivity.
    + exact He.
    + rewrite purge_not_cached. apply andb_false_r.
  - cbn [app]. rewrite download_eq by assumption. destruct (fetch_out f e d). reflexivity.
Qed.

Lemma lock_shrinks e f k : entry_ok e -> shrinks e (crash k (lock_steps e) f) f.
Proof.
  intros He. apply removing_run; [exact He|]. intros s Hs. right.
  assert (Hin : In s (lock_steps e)).
  { rewrite <- (firstn_skipn k (lock_steps e)). apply in_or_app; auto. }
  cbn in Hin. destruct Hin as [<-|[<-|[]]]; eauto.
Qed.

Lemma lock_crash_untouched e f k p : p <> e_lock e -> crash k (lock_steps e) f p = f p.
Proof. intros H. apply crash_untouched. cbn. intros s [<-|[<-|[]]]; cbn; congruence. Qed.

Lemma dir_ok_ext (f g : fs (cfile A)) d :
  g d = f d -> (forall n, g (d ++ [n]) = f (d ++ [n])) -> dir_ok f d -> dir_ok g d.
Proof.
  intros H1 H2 [H|[H H']]; [left; congruence|right]. split; [congruence|]. intros n. rewrite H2; auto.
Qed.

Lemma state_ext (f g : fs (cfile A)) e :
  g (e_processed e) = f (e_processed e) ->
  (forall n, g (e_processed e ++ [n]) = f (e_processed e ++ [n])) ->
  entry_state U f e -> entry_state U g e.
Proof.
  intros H1 H2 [H3 H4]. split; [eapply dir_ok_ext; eassumption|]. intros n. rewrite H2. apply H4.
Qed.

Definition outcome (e : entry) (d : dataset A) (g f : fs (cfile A)) : Prop :=
  shrinks e g f \/
  (incomplete g e /\ (g (e_manifest e) = f (e_manifest e) \/ g (e_manifest e) = None)) \/
  (has_files (e_processed e) d g /\ g (e_processed e) = Some NDir).

Lemma has_files_ext root d f g :
  (forall n, g (root ++ [n]) = f (root ++ [n])) -> has_files root d f -> has_files root d g.
Proof. intros H Hf t n v Hin. rewrite H. apply (Hf t n v Hin). Qed.

Lemma fetch_crash e d f k :
  entry_ok e -> dataset_ok ext d -> listing_ok U listing -> entry_state U f e ->
  let g := crash k (snd (fetch_out f e d)) f in
  dir_ok g (e_processed e) /\ outcome e d g f.
Proof.
  intros He Hok Hl Hd g. subst g. unfold fetch_out.
  destruct (exists_path f (e_lock e)) eqn:Ex; cbn [snd].
  - assert (Hu : forall p, p <> e_lock e -> crash k [SUnlink (e_lock e)] f p = f p).
    { intros p Hp. apply crash_untouched. cbn. intros s [<-|[]]; cbn; congruence. }
    split.
    + apply (dir_ok_ext f); [apply Hu; destruct He; auto|intros; apply Hu; destruct He; auto|exact (proj1 Hd)].
    + left. destruct He. repeat split; intros; left; apply Hu; auto.
  - rewrite crash_app. destruct (Nat.ltb_spec k (length (lock_steps e))) as [Hk|Hk].
    + split.
      * apply (dir_ok_ext f); [apply lock_crash_untouched; destruct He; auto
                              |intros; apply lock_crash_untouched; destruct He; auto|exact (proj1 Hd)].
      * left. apply lock_shrinks, He.
    + set (f1 := run (lock_steps e) f).
      assert (Hd1 : entry_state U f1 e).
      { apply (state_ext f); [apply lock_untouched; destruct He; auto
                              |intros; apply lock_untouched; destruct He; auto|exact Hd]. }
      assert (Hs1 : shrinks e f1 f).
      { unfold f1. rewrite <- (crash_all (length (lock_steps e))) by lia. apply lock_shrinks, He. }
      assert (Hm1 : f1 (e_manifest e) = f (e_manifest e)).
      { apply lock_untouched. destruct He; auto. }
      rewrite crash_app. set (t := del_steps f1 e ++ put_steps e d).
      destruct (Nat.ltb_spec (k - length (lock_steps e)) (length t)) as [Hk2|Hk2].
      * destruct (store_crash e d f1 (k - length (lock_steps e)) He Hok Hl Hd1) as (P1 & _ & P3 & _).
        split; [exact P1|]. destruct P3 as [P3|[[P3 P4]|P3]].
        -- left. eapply shrinks_trans; [exact P3|exact Hs1].
        -- right; left. split; [exact P3|]. left. unfold t. congruence.
        -- right; right. exact P3.
      * destruct (store_crash e d f1 (length t) He Hok Hl Hd1) as (P1 & _ & _ & P4).
        fold t in P1, P4. rewrite crash_all in P1, P4 by lia. destruct (P4 ltac:(lia)) as (Q1 & Q2 & Q3).
        set (j := (k - length (lock_steps e) - length t)%nat).
        assert (Hu : forall p, p <> e_lock e -> crash j [SUnlink (e_lock e)] (run t f1) p = run t f1 p).
        { intros p Hp. apply crash_untouched. cbn. intros s [<-|[]]; cbn; congruence. }
        split.
        -- apply (dir_ok_ext (run t f1)); [apply Hu; destruct He; auto|intros; apply Hu; destruct He; auto|exact P1].
        -- right; right. split.
           ++ eapply has_files_ext; [|exact Q1]. intros; apply Hu; destruct He; auto.
           ++ rewrite Hu; [exact Q2|destruct He; auto].
Qed.

Lemma fetch_done e d f :
  entry_ok e -> dataset_ok ext d -> listing_ok U listing -> entry_state U f e ->
  exists_path f (e_lock e) = false ->
  fst (fetch_out f e d) = Ok d /\
  let g := run (snd (fetch_out f e d)) f in
  has_files (e_processed e) d g /\ is_cached g e = true /\ g (e_lock e) = None.
Proof.
  intros He Hok Hl Hd Hx. unfold fetch_out. rewrite Hx. cbn [fst snd]. split; [reflexivity|].
  rewrite run_app, run_app. set (f1 := run (lock_steps e) f). set (t := del_steps f1 e ++ put_steps e d).
  assert (Hd1 : entry_state U f1 e).
  { apply (state_ext f); [apply lock_untouched; destruct He; auto
                          |intros; apply lock_untouched; destruct He; auto|exact Hd]. }
  destruct (store_crash e d f1 (length t) He Hok Hl Hd1) as (_ & _ & _ & P4).
  fold t in P4. rewrite crash_all in P4 by lia. destruct (P4 ltac:(lia)) as (Q1 & Q2 & x & Q3).
  cbn. assert (Hu : forall p, p <> e_lock e -> set (run t f1) (e_lock e) None p = run t f1 p).
  { intros p Hp. apply set_other, Hp. }
  split; [|split].
  - eapply has_files_ext; [|exact Q1]. intros; apply Hu; destruct He; auto.
  - unfold is_cached. rewrite !Hu by (destruct He; auto). rewrite Q2, Q3. reflexivity.
  - apply set_same.
Qed.

Lemma purge_shrinks e f k : entry_ok e -> shrinks e (crash k (purge_steps f e) f) f.
Proof.
  intros He. apply removing_run; [exact He|]. intros s Hs.
  assert (Hin : In s (purge_steps f e)).
  { rewrite <- (firstn_skipn k (purge_steps f e)). apply in_or_app; auto. }
  unfold purge_steps in Hin. apply in_app_or in Hin. destruct Hin as [Hin|[<-|[]]].
  - eapply del_steps_removing; exact Hin.
  - left; eauto.
Qed.

Lemma purge_dir_ok e f : entry_ok e -> listing_ok U listing -> entry_state U f e ->
  entry_state U (run (purge_steps f e) f) e.
Proof.
  intros He Hl Hd. unfold purge_steps. rewrite run_app. destruct (del_steps_empty f e Hl Hd) as [E1 E2].
  assert (Hn : forall n, run [SUnlink (e_manifest e)] (run (del_steps f e) f) (e_processed e ++ [n]) = None).
  { intros n. cbn. destruct He. rewrite set_other by auto. apply E2. }
  split; [|intros n Hc; rewrite Hn in Hc; congruence].
  right. split; [|exact Hn]. cbn. destruct He. rewrite set_other by auto. exact E1.
Qed.

Lemma load_outcome e d force f k :
  entry_ok e -> dataset_ok ext d -> listing_ok U listing -> entry_state U f e ->
  outcome e d (crash k (snd (load_out f e d force)) f) f.
Proof.
  intros He Hok Hl Hd. unfold load_out.
  destruct (negb force && is_cached f e).
  - destruct (storage_load torn f (e_processed e)) as [x|x].
    + cbn. unfold crash. rewrite firstn_nil. left. apply shrinks_refl.
    + assert (Hnil : outcome e d (crash k [] f) f).
      { unfold crash. rewrite firstn_nil. left. apply shrinks_refl. }
      destruct x; try exact Hnil.
      destruct (fetch_out (run (purge_steps f e) f) e d) as [r t] eqn:Ef. cbn [snd].
      rewrite crash_app. destruct (Nat.ltb_spec k (length (purge_steps f e))) as [Hk|Hk].
      * left. apply purge_shrinks, He.
      * destruct (fetch_crash e d (run (purge_steps f e) f) (k - length (purge_steps f e))
                    He Hok Hl (purge_dir_ok e f He Hl Hd)) as [_ P].
        rewrite Ef in P. cbn [snd] in P.
        assert (Hs : shrinks e (run (purge_steps f e) f) f).
        { rewrite <- (crash_all (length (purge_steps f e))) by lia. apply purge_shrinks, He. }
        destruct P as [P|[[P P']|P]].
        -- left. eapply shrinks_trans; eassumption.
        -- assert (Hn : run (purge_steps f e) f (e_manifest e) = None).
           { unfold purge_steps. rewrite run_app. cbn. apply set_same. }
           right. left. split; [exact P|]. right. destruct P' as [P'|P']; congruence.
        -- right; right. exact P.
  - apply (fetch_crash e d f k He Hok Hl Hd).
Qed.

Lemma stored_cached e d g : has_files (e_processed e) d g -> is_cached g e = true ->
  cached_value g e = Ok (stored_form d).
Proof. intros H Hc. unfold cached_value. rewrite Hc, (load_has_files _ _ _ H). reflexivity. Qed.

Lemma outcome_value e d g f x : outcome e d g f -> cached_value g e = Ok x ->
  cached_value f e = Ok x \/ x = stored_form d.
Proof.
  intros [H|[[H _]|[H _]]] Hv.
  - left. eapply shrinks_cached; eassumption.
  - exfalso. unfold cached_value in Hv. destruct (is_cached g e); [|discriminate].
    destruct (incomplete_not_ok _ _ H) as [E|E]; rewrite E in Hv; discriminate.
  - right. unfold cached_value in Hv. destruct (is_cached g e); [|discriminate].
    rewrite (load_has_files _ _ _ H) in Hv. congruence.
Qed.

(* C16: a crash never mixes two versions *)
Lemma load_crash_no_mixture e d force f k x p :
  entry_ok e -> dataset_ok ext d -> listing_ok U listing -> entry_state U f e ->
  value (load_dataset ext torn listing e p false false)
    (crash k (snd (load_dataset ext torn listing e (Ok d) true force f)) f) = Ok x ->
  value (load_dataset ext torn listing e p false false) f = Ok x \/ x = stored_form d.
Proof.
  intros He Hok Hl Hd. rewrite !offline_value, load_eq by exact He.
  apply outcome_value, load_outcome; assumption.
Qed.

(* C15 *)
Lemma first_outcome e d g f : f (e_manifest e) = None -> outcome e d g f ->
  cached_value g e = Err DatasetNotCachedError \/
  (is_cached g e = true /\ cached_value g e = Ok (stored_form d)).
Proof.
  intros Hm [(_ & _ & H)|[[_ H]|[H _]]].
  - left. unfold cached_value, is_cached. destruct (g (e_processed e)) as [[|]|]; try reflexivity.
    destruct H as [->| ->]; [rewrite Hm|]; reflexivity.
  - left. unfold cached_value, is_cached. destruct (g (e_processed e)) as [[|]|]; try reflexivity.
    destruct H as [->| ->]; [rewrite Hm|]; reflexivity.
  - unfold cached_value. destruct (is_cached g e); [right|left; reflexivity].
    rewrite (load_has_files _ _ _ H). auto.
Qed.

Lemma first_download_crash e d force f k p :
  entry_ok e -> dataset_ok ext d -> listing_ok U listing -> entry_state U f e ->
  f (e_manifest e) = None ->
  let g := crash k (snd (load_dataset ext torn listing e (Ok d) true force f)) f in
  value (load_dataset ext torn listing e p false false) g = Err DatasetNotCachedError \/
  value (load_dataset ext torn listing e p false false) g = Ok (stored_form d).
Proof.
  intros He Hok Hl Hd Hm g. rewrite !offline_value. unfold g. rewrite load_eq by exact He.
  destruct (first_outcome e d _ f Hm (load_outcome e d force f k He Hok Hl Hd)) as [H|[_ H]]; auto.
Qed.

Lemma load_crash_dir_ok e d force f k :
  entry_ok e -> dataset_ok ext d -> listing_ok U listing -> entry_state U f e ->
  negb force && is_cached f e = false ->
  dir_ok (crash k (snd (load_out f e d force)) f) (e_processed e).
Proof.
  intros He Hok Hl Hd Hc. unfold load_out. rewrite Hc. apply (fetch_crash e d f k He Hok Hl Hd).
Qed.

(* the names in the directory stay in U *)
Definition tidy (e : entry) (s : step (cfile A)) : Prop :=
  (exists p, s = SUnlink p) \/ forall n, touches s (e_processed e ++ [n]) -> In n U.

Lemma tidy_run e l : forall f, (forall s, In s l -> tidy e s) ->
  names_in U f (e_processed e) -> names_in U (run l f) (e_processed e).
Proof.
  induction l as [|s r IH]; intros f H Hf; [exact Hf|].
  change (run (s :: r) f) with (run r (exec f s)).
  apply IH; [intros t Ht; apply H; right; exact Ht|].
  assert (Hcls : forall n, touches s (e_processed e ++ [n]) \/ ~ touches s (e_processed e ++ [n])).
  { intros n. assert (D : forall x y : path, x = y \/ x <> y).
    { intros x y. destruct (list_eq_dec string_dec x y); auto. }
    destruct s; cbn; try apply D.
    destruct (D src (e_processed e ++ [n])), (D dst (e_processed e ++ [n])); tauto. }
  intros n Hn. destruct (H s (or_introl eq_refl)) as [[p ->]|Ht].
  - cbn in Hn. unfold set in Hn. destruct (path_eqb _ _); [congruence|]. apply Hf, Hn.
  - destruct (Hcls n) as [Hc|Hc]; [apply Ht, Hc|]. rewrite exec_untouched in Hn by exact Hc. apply Hf, Hn.
Qed.

Lemma fetch_tidy e d f s : entry_ok e -> dataset_ok ext d -> names_of ext U e d ->
  In s (snd (fetch_out f e d)) -> tidy e s.
Proof.
  intros He Hok HU. unfold fetch_out. destruct (exists_path f (e_lock e)); cbn [snd].
  - intros [<-|[]]. left; eauto.
  - intros H. apply in_app_or in H. destruct H as [H|H].
    { right. intros n Hc. destruct He. cbn in H. destruct H as [<-|[<-|[]]]; cbn in Hc;
        symmetry in Hc; exfalso; exact (ok_cl0 _ Hc). }
    apply in_app_or in H. destruct H as [H|[<-|[]]]; [|left; eauto].
    apply in_app_or in H. destruct H as [H|H].
    { left. destruct (del_steps_removing _ _ _ H) as [Hx|[->|[v ->]]]; [exact Hx| |];
        exfalso; unfold del_steps in H; destruct (run (lock_steps e) f (e_processed e)) as [[|]|]; try destruct H;
        apply in_app_or in H; destruct H as [H|[H|[]]]; try discriminate;
        apply in_map_iff in H; destruct H as (? & H & _); discriminate. }
    right. intros n Hc. unfold put_steps in H. apply in_app_or in H. destruct H as [H|H].
    + rewrite storage_save_eq in H. destruct H as [<-|H].
      * cbn in Hc. exfalso. symmetry in Hc. exact (app_neq_dir _ _ Hc).
      * destruct (write_all_touches _ _ _ _ H Hc) as (m & Hm & E). apply app_inv_head in E.
        injection E as ->. apply HU. rewrite map_map in Hm. apply in_map_iff in Hm.
        destruct Hm as ([t [n' v]] & E & Hin). cbn in E. subst n'.
        rewrite (save_has_files (e_processed e) d (fun _ => None) Hok t m v Hin). discriminate.
    + destruct He. cbn in H. destruct H as [<-|[<-|[]]]; cbn in Hc; symmetry in Hc; exfalso; exact (ok_cm0 _ Hc).
Qed.

Lemma stored_same d : same_arrays (stored_form d) d.
Proof. split; reflexivity. Qed.

(* a retry after any interruption of the first download succeeds, at the latest the second time *)
Lemma first_download_retry e d force f k :
  entry_ok e -> dataset_ok ext d -> names_of ext U e d -> listing_ok U listing -> entry_state U f e ->
  f (e_manifest e) = None ->
  let load := load_dataset ext torn listing e (Ok d) true false in
  let g := crash k (snd (load_dataset ext torn listing e (Ok d) true force f)) f in
  (exists x, value load g = Ok x /\ same_arrays x d) \/
  (g (e_lock e) <> None /\ value load g = Err FileExistsError /\
   exists x, value load (after load g) = Ok x /\ same_arrays x d).
Proof.
  intros He Hok HU Hl Hd Hm load g.
  assert (Hnc : is_cached f e = false).
  { unfold is_cached. rewrite Hm. destruct (f (e_processed e)) as [[|]|]; reflexivity. }
  assert (Hdg : entry_state U g e).
  { unfold g. rewrite load_eq by exact He. split.
    - apply load_crash_dir_ok; try assumption. rewrite Hnc. apply andb_false_r.
    - unfold load_out. rewrite Hnc, andb_false_r. apply tidy_run; [|apply Hd].
      intros s Hs. apply (fetch_tidy e d f); try assumption.
      rewrite <- (firstn_skipn k (snd (fetch_out f e d))). apply in_or_app; auto. }
  assert (Ho : outcome e d g f).
  { unfold g. rewrite load_eq by exact He. apply load_outcome; assumption. }
  unfold load, value, after. rewrite !load_eq by exact He.
  assert (Hlo : load_out g e d false = load_out g e d false) by reflexivity.
  unfold load_out at 2 in Hlo. cbn [negb andb] in Hlo.
  destruct (is_cached g e) eqn:Ec; rewrite Hlo.
  - left. destruct (first_outcome e d g f Hm Ho) as [H|[_ H]].
    + exfalso. unfold cached_value in H. rewrite Ec in H. destruct Ho as [(_ & _ & Ho)|[[_ Ho]|[Ho _]]].
      * unfold is_cached in Ec. destruct (g (e_processed e)) as [[|]|]; try discriminate.
        destruct Ho as [Ho|Ho]; rewrite Ho in Ec; [rewrite Hm in Ec|]; discriminate.
      * unfold is_cached in Ec. destruct (g (e_processed e)) as [[|]|]; try discriminate.
        destruct Ho as [Ho|Ho]; rewrite Ho in Ec; [rewrite Hm in Ec|]; discriminate.
      * rewrite (load_has_files _ _ _ Ho) in H. discriminate.
    + unfold cached_value in H. rewrite Ec in H.
      destruct (storage_load torn g (e_processed e)) as [x|x]; [|destruct x; discriminate].
      injection H as ->. exists (stored_form d). split; [reflexivity|apply stored_same].
  - destruct (exists_path g (e_lock e)) eqn:Ex.
    + right. unfold fetch_out. rewrite Ex. cbn [fst snd].
      split; [unfold exists_path in Ex; destruct (g (e_lock e)); congruence|].
      split; [reflexivity|].
      set (h := run [SUnlink (e_lock e)] g).
      assert (Hu : forall p, p <> e_lock e -> h p = g p) by (intros p Hp; apply set_other, Hp).
      assert (Hch : is_cached h e = false).
      { unfold is_cached in *. rewrite !Hu by (destruct He; auto). exact Ec. }
      assert (Hdh : entry_state U h e).
      { apply (state_ext g); [apply Hu; destruct He; auto|intros; apply Hu; destruct He; auto|exact Hdg]. }
      unfold load_out. rewrite Hch. cbn [negb andb].
      destruct (fetch_done e d h He Hok Hl Hdh) as [H _].
      { unfold exists_path, h. cbn. rewrite set_same. reflexivity. }
      exists d. split; [exact H|split; reflexivity].
    + left. exists d. split; [|split; reflexivity].
      apply (fetch_done e d g He Hok Hl Hdg Ex).
Qed.

(* force=True recovers from anything *)
Lemma force_recovers e d f p :
  entry_ok e -> dataset_ok ext d -> listing_ok U listing -> entry_state U f e ->
  f (e_lock e) = None ->
  let load := load_dataset ext torn listing e (Ok d) true true in
  value load f = Ok d /\
  value (load_dataset ext torn listing e p false false) (after load f) = Ok (stored_form d).
Proof.
  intros He Hok Hl Hd Hx load. unfold load. rewrite offline_value. unfold value, after.
  rewrite load_eq by exact He. unfold load_out. cbn [negb andb].
  destruct (fetch_done e d f He Hok Hl Hd) as (H1 & H2 & H3 & _).
  { unfold exists_path. rewrite Hx. reflexivity. }
  split; [exact H1|]. apply stored_cached; assumption.
Qed.

(* C47: whatever a load returned, the next load returns the same arrays *)
Lemma load_then_cached e d force f x p dl :
  entry_ok e -> dataset_ok ext d -> listing_ok U listing -> entry_state U f e ->
  value (load_dataset ext torn listing e (Ok d) true force) f = Ok x ->
  exists y, value (load_dataset ext torn listing e (Ok p) dl false)
              (after (load_dataset ext torn listing e (Ok d) true force) f) = Ok y /\
            (y = x \/ (x = d /\ y = stored_form d)).
Proof.
  intros He Hok Hl Hd. unfold value at 1, after. rewrite load_eq by exact He. intros Hv.
  assert (Hcv : forall g y, cached_value g e = Ok y ->
    value (load_dataset ext torn listing e (Ok p) dl false) g = Ok y).
  { intros g y Hy. destruct dl; [|rewrite offline_value; exact Hy].
    unfold value. rewrite load_eq by exact He. unfold cached_value in Hy. unfold load_out. cbn [negb andb].
    destruct (is_cached g e); [|discriminate].
    destruct (storage_load torn g (e_processed e)) as [z|z]; [exact Hy|destruct z; discriminate]. }
  assert (Hfetch : forall f0, entry_state U f0 e -> fst (fetch_out f0 e d) = Ok x ->
     x = d /\ cached_value (run (snd (fetch_out f0 e d)) f0) e = Ok (stored_form d)).
  { intros f0 Hd0 H0. destruct (exists_path f0 (e_lock e)) eqn:Ex.
    - unfold fetch_out in H0. rewrite Ex in H0. discriminate.
    - destruct (fetch_done e d f0 He Hok Hl Hd0 Ex) as (H1 & H2 & H3 & _).
      split; [congruence|]. apply stored_cached; assumption. }
  unfold load_out in *. destruct (negb force && is_cached f e) eqn:Hc.
  - destruct (storage_load torn f (e_processed e)) as [z|z] eqn:Es.
    + cbn [fst snd] in *. injection Hv as ->. exists x. split; [|auto]. apply Hcv. cbn.
      unfold cached_value. apply andb_prop in Hc. destruct Hc as [_ ->]. rewrite Es. reflexivity.
    + destruct z; try discriminate.
      destruct (fetch_out (run (purge_steps f e) f) e d) as [r t] eqn:Ef. cbn [fst snd] in *.
      destruct (Hfetch (run (purge_steps f e) f) (purge_dir_ok e f He Hl Hd)) as [-> H].
      { rewrite Ef. exact Hv. }
      exists (stored_form d). split; [|auto]. apply Hcv. rewrite run_app. rewrite Ef in H. exact H.
  - destruct (Hfetch f Hd Hv) as [-> H]. exists (stored_form d). split; [|auto]. apply Hcv, H.
Qed.

(* ---------------------------------------------------------------------- metadata *)
End Storage.

Lemma small_jsonable v : small v -> to_jsonable v = v.
Proof.
  revert v. fix IH 2. intros v H. destruct H as [ | | | | |l Hl Hf|d Hf]; try reflexivity.
  - cbn. replace (50 <? lenZ l) with false by (symmetry; apply Z.ltb_ge; exact Hl). f_equal.
    induction Hf as [|x r Hx Hr IHr]; [reflexivity|]. cbn. rewrite (IH x Hx). f_equal. apply IHr.
    unfold lenZ in *; cbn in Hl; lia.
  - cbn. f_equal. induction Hf as [|[k x] r Hx Hr IHr]; [reflexivity|]. cbn in *.
    rewrite (IH x Hx). f_equal. exact IHr.
Qed.

Lemma small_meta d : Forall (fun p => small (snd p)) d -> mapping_to_jsonable d = d.
Proof.
  unfold mapping_to_jsonable. induction 1 as [|[k x] r Hx Hr IH]; [reflexivity|].
  cbn in *. rewrite (small_jsonable x Hx), IH. reflexivity.
Qed.
