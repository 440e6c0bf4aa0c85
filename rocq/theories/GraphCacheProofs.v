(* Proofs about the graph cache. *)
From Coq Require Import ZifyBool ZifyNat String Ascii.
From Coq Require Import DecimalString DecimalZ DecimalFacts Decimal.
From Verif Require Import Prelude ListFacts FsModel FsFacts DecString GraphOpsModel KnnModel KnnSpec KnnProofs
  SampleServiceProofs DatasetCacheProofs GraphCacheModel GraphCacheSpec.
Local Open Scope Z_scope.
Local Open Scope list_scope.

(* --------------------------------------------------------------------------- shard names *)
Fixpoint zeros (n : nat) : string := match n with O => EmptyString | S k => String "0" (zeros k) end.
Lemma concat_zeros n : String.concat "" (repeat "0"%string n) = zeros n.
Proof.
  induction n as [|n IH]; [reflexivity|]. cbn [repeat zeros]. rewrite <- IH.
  destruct n; reflexivity.
Qed.
Lemma zeros_app a b : zeros (a + b) = (zeros a ++ zeros b)%string.
Proof. induction a as [|a IH]; cbn; [reflexivity|]. rewrite IH. reflexivity. Qed.

(* str(z) of a non-negative number has no superfluous leading zero *)
Lemma dec_no_leading_zero z s : 0 <= z -> dec z = String "0" s -> s = EmptyString.
Proof.
  intros Hz H. unfold dec in H. destruct (to_int_not_nil z) as [N1 N2].
  pose proof (DecimalZ.to_of (Z.to_int z)) as E. rewrite DecimalZ.of_to in E.
  destruct (Z.to_int z) as [d|d] eqn:Ez.
  2: { destruct d; cbn in H; discriminate. }
  cbn in E. injection E as E. unfold NilZero.string_of_int in H.
  destruct d as [|d|d|d|d|d|d|d|d|d|d]; try (cbn in H; discriminate); try congruence.
  cbn in H. injection H as H. cbn in E. unfold unorm in E. cbn in E.
  destruct (nzhead d) as [|e|e|e|e|e|e|e|e|e|e] eqn:En; try discriminate.
  - injection E as E. subst d. cbn in H. congruence.
  - exfalso. exact (nzhead_nonzero d e En).
Qed.

Lemma dec_nonempty z : dec z <> EmptyString.
Proof.
  unfold dec. destruct (to_int_not_nil z) as [N1 N2]. destruct (Z.to_int z) as [d|d]; destruct d; cbn; congruence.
Qed.

Lemma pad_eq a b x y : 0 <= b -> (zeros x ++ dec a)%string = (zeros y ++ dec b)%string -> (y <= x)%nat -> a = b.
Proof.
  intros Hb H Hle. replace x with (y + (x - y))%nat in H by lia.
  rewrite zeros_app, append_assoc in H. apply append_inv_head in H.
  destruct (x - y)%nat as [|m] eqn:E; [apply dec_inj; exact H|]. exfalso.
  symmetry in H. cbn in H. apply dec_no_leading_zero in H; [|exact Hb].
  destruct m; cbn in H; [exact (dec_nonempty a H)|discriminate].
Qed.
Lemma pad4_inj a b : 0 <= a -> 0 <= b -> pad4 a = pad4 b -> a = b.
Proof.
  intros Ha Hb H. unfold pad4 in H. rewrite !concat_zeros in H.
  destruct (Nat.le_ge_cases (4 - String.length (dec b)) (4 - String.length (dec a))) as [L|L].
  - eapply pad_eq; eassumption.
  - symmetry. symmetry in H. eapply pad_eq; eassumption.
Qed.
Lemma shard_name_inj a b : 0 <= a -> 0 <= b -> shard_name a = shard_name b -> a = b.
Proof.
  intros Ha Hb H. unfold shard_name in H. apply append_inv_head, append_inv_tail in H.
  apply pad4_inj; assumption.
Qed.

(* -------------------------------------------------------------------- sequences of steps *)
Section Steps.
Context {V : Type}.
Lemma unlinks_crash (ps : list path) k (f : fs V) p :
  crash k (map SUnlink ps) f p = f p \/ crash k (map SUnlink ps) f p = None.
Proof.
  revert k f. induction ps as [|q ps IH]; intros [|k] f; cbn; try (left; reflexivity).
  unfold crash in *. cbn. destruct (IH k (set f q None)) as [H|H]; unfold run in *; rewrite H; [|auto].
  destruct (list_eq_dec string_dec p q) as [->|Hne]; [right; apply set_same|left; apply set_other, Hne].
Qed.
Lemma unlinks_run (ps : list path) (f : fs V) p : In p ps -> run (map SUnlink ps) f p = None.
Proof.
  revert f. induction ps as [|q ps IH]; intros f; [intros []|]. cbn. intros [->|H].
  - destruct (unlinks_crash ps (List.length ps) (set f p None) p) as [E|E].
    + unfold crash in E. rewrite firstn_all2 in E by (rewrite map_length; lia). unfold run in *. rewrite E. apply set_same.
    + unfold crash in E. rewrite firstn_all2 in E by (rewrite map_length; lia). exact E.
  - apply (IH (set f q None) H).
Qed.

(* plain (non-atomic) writes of several files *)
Definition writes (l : list (path * V)) : list (step V) := flat_map (fun p => [STorn (fst p); SWrite (fst p) (snd p)]) l.
Lemma writes_other l k (f : fs V) q : ~ In q (map fst l) -> crash k (writes l) f q = f q.
Proof.
  intros H. apply crash_untouched. intros s Hs. unfold writes in Hs. apply in_flat_map in Hs.
  destruct Hs as [[p v] [Hp [<-|[<-|[]]]]]; cbn; intros <-; apply H; apply in_map_iff; exists (p, v); auto.
Qed.
Lemma writes_run l (f : fs V) p v : NoDup (map fst l) -> In (p, v) l -> run (writes l) f p = Some (NFile (Whole v)).
Proof.
  revert f. induction l as [|[q w] l IH]; intros f Hnd H; [destruct H|]. cbn in Hnd.
  inversion Hnd as [|? ? Hq Hnd']; subst. change (writes ((q, w) :: l)) with ([STorn q; SWrite q w] ++ writes l).
  rewrite run_app. destruct H as [E|H]; [|apply IH; assumption].
  injection E as -> ->. rewrite <- (crash_all (List.length (writes l))) by lia.
  rewrite writes_other by exact Hq. cbn. apply set_same.
Qed.
End Steps.

(* ------------------------------------------------------------------------------- slices *)
Lemma slices_concat {A} (l : list A) size n : 0 < size -> lenZ l <= n * size -> 0 <= n ->
  flat_map (fun i => slice l (i * size) (Z.min (lenZ l) ((i + 1) * size))) (arange n) = l.
Proof.
  intros Hs Hle Hn.
  assert (H : forall m, flat_map (fun i => slice l (i * size) (Z.min (lenZ l) ((i + 1) * size)))
                          (map Z.of_nat (seq 0 m)) = firstn (m * Z.to_nat size) l).
  { induction m as [|m IH]; [reflexivity|]. rewrite seq_S, map_app, flat_map_app, IH. cbn [map flat_map plus].
    rewrite app_nil_r. unfold slice.
    assert (Ek : Z.to_nat (Z.of_nat m * size) = (m * Z.to_nat size)%nat) by lia. rewrite Ek.
    set (a := (m * Z.to_nat size)%nat) in *.
    replace (S m * Z.to_nat size)%nat with (a + Z.to_nat size)%nat by (unfold a; lia).
    assert (Hsplit : firstn (a + Z.to_nat size) l = firstn a l ++ firstn (Z.to_nat size) (skipn a l)).
    { clear. revert l. induction a as [|a IH]; intros l; [reflexivity|]. destruct l; cbn.
      - destruct (Z.to_nat size); reflexivity.
      - f_equal. apply IH. }
    rewrite Hsplit. f_equal. unfold lenZ.
    destruct (Z.le_gt_cases ((Z.of_nat m + 1) * size) (Z.of_nat (List.length l))) as [L|L].
    - f_equal. lia.
    - rewrite !firstn_all2; [reflexivity| |]; rewrite skipn_length; unfold a; lia. }
  unfold arange. rewrite H. apply firstn_all2. unfold lenZ in Hle. nia.
Qed.
Lemma slice_length {A B} (l : list A) (m : list B) s e : lenZ l = lenZ m -> lenZ (slice l s e) = lenZ (slice m s e).
Proof. intros H. unfold slice, lenZ in *. rewrite !firstn_length, !skipn_length. lia. Qed.
Lemma num_shards_ok E size : 0 < size < E -> 1 <= num_shards E size /\ E <= num_shards E size * size.
Proof.
  intros H. unfold num_shards. pose proof (Z.div_mod (E + size - 1) size ltac:(lia)) as D.
  pose proof (Z.mod_pos_bound (E + size - 1) size ltac:(lia)) as B. nia.
Qed.

Section Cache.
Context {W M U : Type}.
Notation F := (gfile W M U).
Implicit Types (f : fs F) (g : graph W M) (d : path).

Lemma mk_graph_valid g : valid_graph g ->
  mk_graph (g_n g) (g_edges g) (g_w g) (g_directed g) (g_meta g) = Ok g.
Proof.
  intros [H1 H2]. unfold mk_graph.
  assert (E : existsb (fun e : edge => (fst e <? 0) || (g_n g <=? fst e) || (snd e <? 0) || (g_n g <=? snd e))
                (g_edges g) = false).
  { clear H2. induction (g_edges g) as [|[i j] l IH]; [reflexivity|]. cbn.
    destruct (H1 i j (or_introl eq_refl)).
    rewrite IH by (intros a b Hab; apply H1; right; exact Hab). lia. }
  rewrite E. destruct g as [n l w b m]. cbn in *. destruct w as [ws|]; [|reflexivity].
  replace (lenZ ws =? lenZ l) with true by lia. reflexivity.
Qed.
Lemma mk_graph_ok n l w b m g : mk_graph n l w b m = Ok g ->
  g = {| g_n := n; g_edges := l; g_w := w; g_directed := b; g_meta := m |} /\ valid_graph g.
Proof.
  unfold mk_graph. destruct (existsb _ l) eqn:E; [discriminate|].
  assert (Hr : forall i j, In (i, j) l -> 0 <= i < n /\ 0 <= j < n).
  { intros i j H. destruct ((i <? 0) || (n <=? i) || (j <? 0) || (n <=? j)) eqn:Ec; [|lia].
    assert (existsb (fun e : edge => (fst e <? 0) || (n <=? fst e) || (snd e <? 0) || (n <=? snd e)) l = true).
    { apply existsb_exists. exists (i, j). auto. }
    congruence. }
  destruct w as [ws|].
  - destruct (lenZ ws =? lenZ l) eqn:El; cbn; [|discriminate]. intros [= <-].
    split; [reflexivity|]. split; [exact Hr|cbn; lia].
  - intros [= <-]. split; [reflexivity|]. split; [exact Hr|exact I].
Qed.

(* the files of an entry besides the manifest *)
Definition sharded (size : Z) (E : Z) : bool := negb (size =? 0) && (size <? E).
Definition files_of d size g : list (path * F) :=
  if sharded size (lenZ (g_edges g))
  then map (fun i => (d ++ [shard_name i], shard g size i)) (arange (num_shards (lenZ (g_edges g)) size))
  else (d ++ ["edge_index.npy"%string], GEdges (g_edges g))
       :: match g_w g with Some w => [(d ++ ["edge_weight.npy"%string], GWeights w)] | None => [] end.
Definition storage_of size g : storage :=
  if sharded size (lenZ (g_edges g)) then Sharded (num_shards (lenZ (g_edges g)) size) size else Single.
Lemma save_edges_eq d size g :
  save_edges (U := U) d size g = (writes (files_of d size g), storage_of size g).
Proof.
  unfold save_edges, files_of, storage_of, sharded. destruct (negb (size =? 0) && (size <? lenZ (g_edges g))).
  - f_equal. unfold writes. induction (arange _) as [|i l IH]; [reflexivity|]. cbn [flat_map map fst snd]. rewrite IH. reflexivity.
  - f_equal. unfold writes. cbn. destruct (g_w g); reflexivity.
Qed.
Lemma files_of_names d size g p : In p (map fst (files_of d size g)) ->
  exists nm, p = d ++ [nm] /\ exists s, nm = String "e" s.
Proof.
  unfold files_of. destruct (sharded _ _).
  - rewrite map_map. intros H. apply in_map_iff in H. destruct H as [i [<- _]]. eexists. split; [reflexivity|].
    eexists. reflexivity.
  - destruct (g_w g); cbn; intros [<-|H]; try (eexists; split; [reflexivity|eexists; reflexivity]).
    + destruct H as [<-|[]]. eexists; split; [reflexivity|eexists; reflexivity].
    + destruct H.
Qed.
Lemma files_of_nodup d size g : NoDup (map fst (files_of d size g)).
Proof.
  unfold files_of. destruct (sharded _ _).
  - rewrite map_map. cbn [fst]. pose proof (arange_NoDup (num_shards (lenZ (g_edges g)) size)) as Hnd.
    assert (Hp : forall i, In i (arange (num_shards (lenZ (g_edges g)) size)) -> 0 <= i) by (intros i Hi; apply arange_In in Hi; lia).
    induction Hnd as [|i l Hi _ IH]; [constructor|]. cbn [map]. constructor; [|apply IH; intros; apply Hp; right; assumption].
    intros H. apply in_map_iff in H. destruct H as [j [E Hj]].
    assert (E2 : shard_name j = shard_name i) by (apply app_inj_tail in E; tauto).
    apply shard_name_inj in E2; [subst; contradiction|apply Hp; right; exact Hj|apply Hp; left; reflexivity].
  - destruct (g_w g); cbn; repeat constructor; cbn; intuition.
    match goal with H : _ ++ _ = _ ++ _ |- _ => apply app_inv_head in H; discriminate end.
Qed.

(* the state in which an entry is complete *)
Definition complete f d size g (user : U) : Prop :=
  f (d ++ ["manifest.json"%string]) =
    Some (NFile (Whole (GManifest {| mf_user := user; mf_n := g_n g; mf_directed := g_directed g;
                                      mf_meta := g_meta g; mf_storage := storage_of size g |}))) /\
  (forall p v, In (p, v) (files_of d size g) -> f p = Some (NFile (Whole v))) /\
  (sharded size (lenZ (g_edges g)) = false -> g_w g = None -> f (d ++ ["edge_weight.npy"%string]) = None).
Definition manifest_of size g (user : U) : gmanifest M U :=
  {| mf_user := user; mf_n := g_n g; mf_directed := g_directed g; mf_meta := g_meta g; mf_storage := storage_of size g |}.

Lemma load_shards_ok f d g size ids h :
  valid_graph g ->
  (forall i, In i ids -> f (d ++ [shard_name i]) = Some (NFile (Whole (shard g size i)))) ->
  (h = None \/ h = Some (match g_w g with Some _ => true | None => false end)) ->
  load_shards f d h ids =
  Ok (flat_map (fun i => slice (g_edges g) (i * size) (Z.min (lenZ (g_edges g)) ((i + 1) * size))) ids,
      match g_w g with
      | Some w => flat_map (fun i => slice w (i * size) (Z.min (lenZ (g_edges g)) ((i + 1) * size))) ids
      | None => []
      end,
      match ids with [] => h | _ => Some (match g_w g with Some _ => true | None => false end) end).
Proof.
  intros [_ Hw]. revert h. induction ids as [|i ids IH]; intros h Hf Hh.
  - cbn. destruct (g_w g); reflexivity.
  - cbn [load_shards]. rewrite (Hf i (or_introl eq_refl)). unfold shard at 1. cbn [option_map].
    destruct (g_w g) as [w|] eqn:Ew; cbn [option_map].
    + replace (match h with Some h0 => negb (Bool.eqb h0 true) | None => false end) with false
        by (destruct Hh as [->| ->]; reflexivity).
      rewrite (slice_length w (g_edges g)) by exact Hw. rewrite Z.eqb_refl. cbn [negb].
      rewrite IH; [|intros; apply Hf; right; assumption|right; reflexivity]. cbn. destruct ids; reflexivity.
    + replace (match h with Some h0 => negb (Bool.eqb h0 false) | None => false end) with false
        by (destruct Hh as [->| ->]; reflexivity).
      rewrite IH; [|intros; apply Hf; right; assumption|right; reflexivity]. cbn. destruct ids; reflexivity.
Qed.

Lemma load_complete f d size g user : 0 <= size -> valid_graph g ->
  complete f d size g user -> load f d = Ok (g, manifest_of size g user).
Proof.
  intros Hs Hv (Hm & Hfiles & Habs). unfold load. rewrite Hm. cbn [mf_storage mf_n mf_directed mf_meta].
  unfold storage_of, files_of in *. destruct (sharded size (lenZ (g_edges g))) eqn:Esh.
  - assert (Hsz : 0 < size < lenZ (g_edges g)) by (unfold sharded in Esh; lia).
    destruct (num_shards_ok _ _ Hsz) as [N1 N2]. unfold load_sharded.
    rewrite (load_shards_ok f d g size); [|exact Hv| |left; reflexivity].
    2: { intros i Hi. apply Hfiles. apply in_map_iff. exists i. auto. }
    rewrite slices_concat by lia.
    assert (Hids : exists x y, arange (num_shards (lenZ (g_edges g)) size) = x :: y).
    { destruct (arange (num_shards (lenZ (g_edges g)) size)) as [|x y] eqn:E; [|eauto].
      pose proof (arange_length (num_shards (lenZ (g_edges g)) size)) as L. rewrite E in L. cbn in L. lia. }
    destruct Hids as (x & y & Hids).
    assert (Hr : (match g_w g with
              | Some w => flat_map (fun i => slice w (i * size) (Z.min (lenZ (g_edges g)) ((i + 1) * size)))
                            (arange (num_shards (lenZ (g_edges g)) size))
              | None => []
              end) = match g_w g with Some w => w | None => [] end).
    { destruct Hv as [_ Hw]. destruct (g_w g) as [w|]; [|reflexivity].
      rewrite <- Hw in N1, N2, Hsz |- *. apply slices_concat; lia. }
    rewrite Hr. rewrite Hids. cbn [bind].
    pose proof (mk_graph_valid g Hv) as Hg.
    destruct (g_w g) as [w|] eqn:Ew; cbn [bind]; rewrite Hg; cbn [bind];
      unfold manifest_of, storage_of; rewrite Esh; reflexivity.
  - unfold load_single. rewrite (Hfiles _ _ (or_introl eq_refl)).
    pose proof (mk_graph_valid g Hv) as Hg.
    destruct (g_w g) as [w|] eqn:Ew.
    + rewrite (Hfiles _ _ (or_intror (or_introl eq_refl))). cbn [bind]. rewrite Hg. cbn [bind].
      unfold manifest_of, storage_of. rewrite Esh. reflexivity.
    + rewrite Habs by reflexivity. cbn [bind]. rewrite Hg. cbn [bind].
      unfold manifest_of, storage_of. rewrite Esh. reflexivity.
Qed.

Definition man d : path := d ++ ["manifest.json"%string].
Definition man_tmp d rnd : path := d ++ [("manifest.json" ++ rnd ++ ".tmp")%string].
Definition clear_paths (ls : fs F -> list string) (sub : fs F -> string -> list path) d f : list path :=
  flat_map (fun nm => match f (d ++ [nm]) with
                      | Some NDir => map (fun q => d ++ nm :: q) (sub f nm) ++ [d ++ [nm]]
                      | _ => [d ++ [nm]]
                      end) (ls f).
Lemma clear_eq ls sub d f : clear_entry ls sub d f = (Ok tt, map SUnlink (clear_paths ls sub d f)).
Proof.
  unfold clear_entry, clear_paths. f_equal. induction (ls f) as [|nm l IH]; [reflexivity|].
  cbn [flat_map]. rewrite IH, map_app. f_equal. destruct (f (d ++ [nm])) as [[|?]|]; try reflexivity.
  rewrite map_app, map_map. reflexivity.
Qed.
Lemma clear_listed ls sub d f nm : In nm (ls f) -> In (d ++ [nm]) (clear_paths ls sub d f).
Proof.
  intros H. unfold clear_paths. apply in_flat_map. exists nm. split; [exact H|].
  destruct (f (d ++ [nm])) as [[|?]|]; [apply in_or_app; right|..]; left; reflexivity.
Qed.
Lemma man_tmp_neq d rnd : man_tmp d rnd <> man d.
Proof.
  unfold man_tmp, man. apply app_neq. intros H. rewrite <- (append_nil_r "manifest.json") in H at 2.
  apply append_inv_head in H. destruct rnd; discriminate.
Qed.
Lemma e_neq_m d s s' : d ++ [String "e" s] <> d ++ [String "m" s'].
Proof. apply app_neq. discriminate. Qed.

Lemma save_eq ls sub d size g user ow rnd f :
  save ls sub d size g user ow rnd f =
  (Ok tt, [SMkdir d] ++ (if ow then map SUnlink (clear_paths ls sub d (run [SMkdir d] f)) else [])
          ++ writes (files_of d size g)
          ++ atomic_write (man_tmp d rnd) (man d) (GManifest (manifest_of size g user))).
Proof.
  unfold save. erewrite pbind_val by reflexivity. destruct ow.
  - erewrite pbind_val by apply clear_eq. rewrite save_edges_eq. erewrite pbind_val by reflexivity.
    cbn [fst snd]. reflexivity.
  - erewrite pbind_val by reflexivity. rewrite save_edges_eq. erewrite pbind_val by reflexivity.
    cbn [fst snd]. reflexivity.
Qed.

Lemma mkdir_other d (f : fs F) k p : p <> d -> crash k [SMkdir d] f p = f p.
Proof. intros H. apply crash_untouched. intros s [<-|[]]. cbn. congruence. Qed.

Lemma atomic_other_e d rnd v (f : fs F) k s :
  crash k (atomic_write (man_tmp d rnd) (man d) v) f (d ++ [String "e" s]) = f (d ++ [String "e" s]).
Proof. apply atomic_write_other; apply e_neq_m. Qed.

(* the three phases of a save *)
Lemma save_phases ls sub d size g user rnd f k :
  listing_ok ls d ->
  let f' := crash k (snd (save ls sub d size g user true rnd f)) f in
  (forall p, p <> d -> f' p = f p \/ f' p = None) \/ f' (man d) = None \/ complete f' d size g user.
Proof.
  intros Hls f'. unfold f'. rewrite save_eq. cbn [snd].
  set (f1 := run [SMkdir d] f). set (C := map SUnlink (clear_paths ls sub d f1)).
  assert (H1 : forall p, p <> d -> f1 p = f p).
  { intros p Hp. exact (mkdir_other d f 1 p Hp). }
  rewrite crash_app. destruct (k <? _)%nat eqn:K1; [left; intros p Hp; left; apply mkdir_other, Hp|].
  fold f1. generalize (k - List.length [@SMkdir F d])%nat as k2. intros k2.
  rewrite crash_app. destruct (k2 <? _)%nat eqn:K2.
  { left. intros p Hp. rewrite <- (H1 p Hp). apply unlinks_crash. }
  right. set (f2 := run C f1). generalize (k2 - List.length C)%nat as k3. intros k3.
  assert (Hgone : forall nm, In nm ["manifest.json"; "edge_index.npy"; "edge_weight.npy"]%string -> f2 (d ++ [nm]) = None).
  { intros nm Hnm. destruct (f1 (d ++ [nm])) as [x|] eqn:E.
    - apply unlinks_run, clear_listed, Hls; [exact Hnm|congruence].
    - unfold f2. rewrite <- (crash_all (List.length C)) by lia.
      destruct (unlinks_crash (clear_paths ls sub d f1) (List.length C) f1 (d ++ [nm])) as [H|H]; fold C in H; rewrite H; auto. }
  assert (Hmf : ~ In (man d) (map fst (files_of d size g))).
  { intros H. apply files_of_names in H. destruct H as (nm & E & s & ->). symmetry in E. revert E. apply e_neq_m. }
  rewrite crash_app. destruct (k3 <? _)%nat eqn:K3.
  { left. rewrite writes_other by exact Hmf. apply Hgone. left; reflexivity. }
  set (f3 := run (writes (files_of d size g)) f2). generalize (k3 - List.length (writes (files_of d size g)))%nat as k4.
  intros k4.
  assert (Hm3 : f3 (man d) = None).
  { unfold f3. rewrite <- (crash_all (List.length (writes (files_of d size g)))) by lia.
    rewrite writes_other by exact Hmf. apply Hgone. left; reflexivity. }
  destruct (atomic_write_crash k4 (man_tmp d rnd) (man d) (GManifest (manifest_of size g user)) f3 (man_tmp_neq d rnd)) as [H|H];
    [left; congruence|right].
  split; [exact H|]. split.
  - intros p v Hp. assert (Hn : In p (map fst (files_of d size g))) by (apply in_map_iff; exists (p, v); auto).
    apply files_of_names in Hn. destruct Hn as (nm & -> & s & ->). rewrite atomic_other_e.
    apply writes_run; [apply files_of_nodup|exact Hp].
  - intros Esh Ew. rewrite atomic_other_e. unfold f3.
    rewrite <- (crash_all (List.length (writes (files_of d size g)))) by lia.
    rewrite writes_other; [apply Hgone; right; right; left; reflexivity|].
    unfold files_of. rewrite Esh, Ew. cbn. intros [E|[]]. apply app_inv_head in E. discriminate.
Qed.

Lemma save_done ls sub d size g user rnd f :
  listing_ok ls d -> complete (after (save ls sub d size g user true rnd) f) d size g user.
Proof.
  intros Hls. unfold after. rewrite save_eq. cbn [snd]. rewrite !run_app.
  set (f1 := run [SMkdir d] f). set (C := map SUnlink (clear_paths ls sub d f1)). set (f2 := run C f1).
  set (f3 := run (writes (files_of d size g)) f2).
  assert (Hgone : forall nm, In nm ["manifest.json"; "edge_index.npy"; "edge_weight.npy"]%string -> f2 (d ++ [nm]) = None).
  { intros nm Hnm. destruct (f1 (d ++ [nm])) as [x|] eqn:E.
    - apply unlinks_run, clear_listed, Hls; [exact Hnm|congruence].
    - unfold f2. rewrite <- (crash_all (List.length C)) by lia.
      destruct (unlinks_crash (clear_paths ls sub d f1) (List.length C) f1 (d ++ [nm])) as [H|H]; fold C in H; rewrite H; auto. }
  set (at4 := atomic_write _ _ _).
  assert (Hoth : forall s, run at4 f3 (d ++ [String "e" s]) = f3 (d ++ [String "e" s])).
  { intros s. rewrite <- (crash_all (List.length at4)) by lia. apply atomic_other_e. }
  split; [apply atomic_write_run, man_tmp_neq|]. split.
  - intros p v Hp. assert (Hn : In p (map fst (files_of d size g))) by (apply in_map_iff; exists (p, v); auto).
    apply files_of_names in Hn. destruct Hn as (nm & -> & s & ->). rewrite Hoth.
    apply writes_run; [apply files_of_nodup|exact Hp].
  - intros Esh Ew. rewrite Hoth. unfold f3.
    rewrite <- (crash_all (List.length (writes (files_of d size g)))) by lia.
    rewrite writes_other; [apply Hgone; right; right; left; reflexivity|].
    unfold files_of. rewrite Esh, Ew. cbn. intros [E|[]]. apply app_inv_head in E. discriminate.
Qed.

(* without overwrite, into a directory that has no stored weights *)
Lemma save_done_fresh ls sub d size g user rnd f :
  f (d ++ ["edge_weight.npy"%string]) = None ->
  complete (after (save ls sub d size g user false rnd) f) d size g user.
Proof.
  intros Hn0. unfold after. rewrite save_eq. cbn [snd app]. change (SMkdir d :: ?l) with ([@SMkdir F d] ++ l).
  rewrite !run_app. set (f1 := run [SMkdir d] f). set (f3 := run (writes (files_of d size g)) f1).
  set (at4 := atomic_write _ _ _).
  assert (Hoth : forall s, run at4 f3 (d ++ [String "e" s]) = f3 (d ++ [String "e" s])).
  { intros s. rewrite <- (crash_all (List.length at4)) by lia. apply atomic_other_e. }
  split; [apply atomic_write_run, man_tmp_neq|]. split.
  - intros p v Hp. assert (Hn : In p (map fst (files_of d size g))) by (apply in_map_iff; exists (p, v); auto).
    apply files_of_names in Hn. destruct Hn as (nm & -> & s & ->). rewrite Hoth.
    apply writes_run; [apply files_of_nodup|exact Hp].
  - intros Esh Ew. rewrite Hoth. unfold f3.
    rewrite <- (crash_all (List.length (writes (files_of d size g)))) by lia.
    rewrite writes_other.
    + unfold f1. rewrite <- Hn0. exact (mkdir_other d f 1 _ (app_neq_dir _ _)).
    + unfold files_of. rewrite Esh, Ew. cbn. intros [E|[]]. apply app_inv_head in E. discriminate.
Qed.

(* paths that are not direct children of the entry: as before, or removed with their directory *)
Lemma save_deep ls sub d size g user rnd f k p :
  p <> d -> (forall nm, p <> d ++ [nm]) ->
  let f' := crash k (snd (save ls sub d size g user true rnd f)) f in f' p = f p \/ f' p = None.
Proof.
  intros Hd Hp f'. unfold f'. rewrite save_eq. cbn [snd].
  set (f1 := run [SMkdir d] f). set (C := map SUnlink (clear_paths ls sub d f1)).
  assert (H1 : f1 p = f p) by exact (mkdir_other d f 1 p Hd).
  rewrite crash_app. destruct (k <? _)%nat; [left; apply mkdir_other, Hd|].
  fold f1. generalize (k - List.length [@SMkdir F d])%nat as k2. intros k2.
  rewrite crash_app. destruct (k2 <? _)%nat.
  { rewrite <- H1. apply unlinks_crash. }
  set (f2 := run C f1). generalize (k2 - List.length C)%nat as k3. intros k3.
  assert (H2 : f2 p = f p \/ f2 p = None).
  { unfold f2. rewrite <- (crash_all (List.length C)) by lia. rewrite <- H1. apply unlinks_crash. }
  assert (H3 : forall j, crash j (writes (files_of d size g)
                 ++ atomic_write (man_tmp d rnd) (man d) (GManifest (manifest_of size g user))) f2 p = f2 p).
  { intros j. apply crash_untouched. intros s Hs. apply in_app_or in Hs. destruct Hs as [Hs|Hs].
    - unfold writes in Hs. apply in_flat_map in Hs. destruct Hs as [[q v] [Hq Hs]].
      assert (Hn : In q (map fst (files_of d size g))) by (apply in_map_iff; exists (q, v); auto).
      apply files_of_names in Hn. destruct Hn as (nm & -> & _).
      destruct Hs as [<-|[<-|[]]]; cbn; intros E; symmetry in E; exact (Hp _ E).
    - destruct Hs as [<-|[<-|[<-|[]]]]; cbn; intros E;
        try (symmetry in E; exact (Hp _ E)); destruct E as [E|E]; symmetry in E; exact (Hp _ E). }
  rewrite H3. exact H2.
Qed.

(* a load in a state where files may be missing *)
Lemma load_shards_missing f f' d h ids :
  (forall i, In i ids -> f' (d ++ [shard_name i]) = f (d ++ [shard_name i]) \/ f' (d ++ [shard_name i]) = None) ->
  (exists e, load_shards f' d h ids = Err e) \/ load_shards f' d h ids = load_shards f d h ids.
Proof.
  revert h. induction ids as [|i ids IH]; intros h Hm; [right; reflexivity|]. cbn [load_shards].
  destruct (Hm i (or_introl eq_refl)) as [E|E]; rewrite E; [|left; eauto].
  destruct (f (d ++ [shard_name i])) as [[|[|v]]|]; try (right; reflexivity).
  destruct v as [|? |l w| |]; try (right; reflexivity).
  destruct (match h with Some h0 => _ | None => false end); [left; eauto|].
  destruct w as [ws|].
  - destruct (negb (lenZ ws =? lenZ l)); [left; eauto|].
    destruct (IH (Some true)) as [[e H]|H]; [intros; apply Hm; right; assumption|rewrite H; left; cbn; eauto|right; rewrite H; reflexivity].
  - destruct (IH (Some false)) as [[e H]|H]; [intros; apply Hm; right; assumption|rewrite H; left; cbn; eauto|right; rewrite H; reflexivity].
Qed.
Lemma load_missing f f' d g m :
  (forall p, p <> d -> f' p = f p \/ f' p = None) -> load f d = Ok (g, m) ->
  (exists e, load f' d = Err e) \/ load f' d = Ok (g, m) \/ load f' d = Ok (without_weights g, m).
Proof.
  intros Hm Hl. unfold load in *. destruct (Hm (d ++ ["manifest.json"%string]) (app_neq_dir _ _)) as [E|E]; rewrite E;
    [|left; eauto].
  destruct (f (d ++ ["manifest.json"%string])) as [[|[|v]]|]; try discriminate. destruct v; try discriminate.
  rename m0 into m1. destruct (mf_storage m1).
  - unfold load_single in *. destruct (Hm (d ++ ["edge_index.npy"%string]) (app_neq_dir _ _)) as [E1|E1]; rewrite E1;
      [|left; cbn; eauto].
    destruct (f (d ++ ["edge_index.npy"%string])) as [[|[|v]]|]; try discriminate. destruct v; try discriminate.
    destruct (Hm (d ++ ["edge_weight.npy"%string]) (app_neq_dir _ _)) as [E2|E2]; rewrite E2; [right; left; exact Hl|].
    right. right.
    destruct (f (d ++ ["edge_weight.npy"%string])) as [[|[|v]]|]; try discriminate; [destruct v; try discriminate|];
      cbn [bind] in Hl; inv_bind Hl; injection Hl as <- <-; pose proof E0 as E3; apply mk_graph_ok in E3;
      destruct E3 as [-> [Hr _]]; cbn [bind]; cbn in Hr;
      match goal with |- context [mk_graph ?n ?l None ?b ?mm] =>
        let X := fresh in
        assert (X : mk_graph n l None b mm = Ok {| g_n := n; g_edges := l; g_w := None; g_directed := b; g_meta := mm |})
          by (apply (mk_graph_valid {| g_n := n; g_edges := l; g_w := None; g_directed := b; g_meta := mm |});
              split; [exact Hr|exact I]); rewrite X end; reflexivity.
  - unfold load_sharded in *. destruct (load_shards_missing f f' d None (arange num_shards)) as [[e H]|H].
    + intros i _. apply Hm, app_neq_dir.
    + rewrite H. left. cbn. eauto.
    + rewrite H. right. left. exact Hl.
Qed.

Lemma pbind_err {A B} (m : prog (gfile W M U) A) (kk : A -> prog (gfile W M U) B) f e s :
  m f = (Err e, s) -> pbind m kk f = (Err e, s).
Proof. intros H. unfold pbind. rewrite H. reflexivity. Qed.

(* --------------------------------------------------------------------------- build_graph *)
Section Build.
Variable part : list dist -> Z -> list Z.
Variable argsort : list dist -> list Z.
Variable val : Z -> Z.
Variable D : Z -> Z -> dist.
Variables n k chunk : Z.
Hypothesis Hn : 0 <= n.
Hypothesis Hchunk : 0 < chunk.
Variable finish : list (edge * Z) -> result (graph W M).
Hypothesis Hfinish : forall l g, finish l = Ok g -> valid_graph g.
Variable user : U.
Variable d : path.
Notation work := ((d ++ ["_work"%string]) ++ ["knn"%string]).
Notation chunks_good f := (good part argsort val D n k false work (@GChunk W M U) f).

Definition expected : result (graph W M) :=
  do l <- knn_numpy part argsort val D n k false chunk; finish l.

Lemma chunk_loop_touches c wd resume rnds starts f s p :
  In s (snd (chunk_loop part argsort val D (@GChunk W M U) chunk_of_file n k false c wd resume rnds starts f)) ->
  touches s p -> exists nm, p = wd ++ [nm].
Proof.
  revert f. induction starts as [|st rest IH]; intros f Hs Ht; [destruct Hs|]. cbn [chunk_loop] in Hs.
  unfold pbind at 1 in Hs. cbn [pread] in Hs. unfold pread in Hs. cbn [run fold_left] in Hs.
  set (e := Z.min n (st + c)) in *.
  match type of Hs with In s (snd (let '(_, _) := pbind ?m ?k f in _)) => set (body := m) in Hs; set (kk := k) in Hs end.
  assert (Hb : forall s0, In s0 (snd (body f)) -> touches s0 p -> exists nm, p = wd ++ [nm]).
  { unfold body. intros s0 H0 Ht0. destruct (resume && _); [destruct H0|]. unfold pbind, psteps, pret in H0. cbn in H0.
    destruct H0 as [<-|[<-|[<-|[]]]]; cbn in Ht0; subst; eauto. destruct Ht0; subst; eauto. }
  assert (Hin : In s (snd (pbind body kk f))) by (destruct (pbind body kk f); exact Hs). clear Hs.
  unfold pbind in Hin. destruct (body f) as [[a|er] sb] eqn:Eb; cbn [snd] in Hb; [|apply (Hb s); assumption].
  destruct (kk a (run sb f)) as [r2 s2] eqn:Ek. cbn [snd] in Hin. apply in_app_or in Hin.
  destruct Hin as [Hin|Hin]; [apply (Hb s); assumption|].
  unfold kk in Ek. unfold pbind in Ek.
  destruct (chunk_loop part argsort val D (@GChunk W M U) chunk_of_file n k false c wd resume rnds rest (run sb f)) as [[m|er] sl] eqn:El.
  - cbn in Ek. injection Ek as <- <-. rewrite app_nil_r in Hin. apply (IH (run sb f)); [rewrite El; exact Hin|exact Ht].
  - injection Ek as <- <-. apply (IH (run sb f)); [rewrite El; exact Hin|exact Ht].
Qed.
Lemma knn_wd_touches c wd resume rnds f s p :
  In s (snd (knn_numpy_wd part argsort val D (@GChunk W M U) chunk_of_file n k false c wd resume rnds f)) ->
  touches s p -> p = wd \/ exists nm, p = wd ++ [nm].
Proof.
  unfold knn_numpy_wd. destruct (n =? 0); [intros []|]. destruct (_ <=? 0); [intros []|].
  unfold pbind at 1. cbn [psteps]. unfold psteps. unfold pbind, plift.
  destruct (py_range n c) as [starts|er].
  - destruct (chunk_loop part argsort val D (@GChunk W M U) chunk_of_file n k false c wd resume rnds starts (run [] (run [SMkdir wd] f))) as [r sl] eqn:El.
    cbn. intros [<-|Hs] Ht; [left; cbn in Ht; auto|]. right. eapply chunk_loop_touches; [rewrite El; exact Hs|exact Ht].
  - cbn. intros [<-|[]] Ht. left. cbn in Ht. auto.
Qed.

Lemma deep_path x : (d ++ ["_work"%string]) ++ ["knn"%string] ++ x = d ++ "_work"%string :: "knn"%string :: x.
Proof. rewrite <- app_assoc. reflexivity. Qed.
Lemma deep_not_child x y nm : d ++ x :: y :: [] <> d ++ [nm] /\ forall z, d ++ x :: y :: z :: [] <> d ++ [nm].
Proof. split; [|intros z]; intros H; apply app_inv_head in H; discriminate. Qed.

Definition inv f : Prop :=
  (f (man d) = None /\ chunks_good f) \/ (exists g m, expected = Ok g /\ load f d = Ok (g, m)).

Lemma good_from f f' :
  chunks_good f -> (forall nm, f' (work ++ [nm]) = f (work ++ [nm]) \/ f' (work ++ [nm]) = None) -> chunks_good f'.
Proof.
  intros Hg Hf x y. destruct (Hf (part_name x y)) as [E|E]; rewrite E; [apply Hg|left; reflexivity].
Qed.

Lemma work_neq nm : work ++ [nm] <> d /\ (forall x, work ++ [nm] <> d ++ [x]) /\ work ++ [nm] <> d ++ ["_work"%string].
Proof.
  rewrite <- app_assoc, deep_path. split; [|split].
  - intros H. rewrite <- (app_nil_r d) in H at 2. apply app_inv_head in H. discriminate.
  - intros x H. apply app_inv_head in H. discriminate.
  - intros H. apply app_inv_head in H. discriminate.
Qed.
Lemma work_neq0 : work <> d /\ (forall x, work <> d ++ [x]).
Proof.
  rewrite <- (app_nil_r work), <- app_assoc, deep_path. split.
  - intros H. rewrite <- (app_nil_r d) in H at 2. apply app_inv_head in H. discriminate.
  - intros x H. apply app_inv_head in H. discriminate.
Qed.

(* raw edges: value, crash points keep chunk files good, the manifest is not touched *)
Lemma raw_spec resume rnds wd f : (wd = None \/ wd = Some (d ++ ["_work"%string])) -> chunks_good f ->
  let m := raw_knn part argsort val D n k chunk resume rnds wd in
  fst (m f) = knn_numpy part argsort val D n k false chunk /\
  (forall j, chunks_good (crash j (snd (m f)) f)) /\
  (forall j, crash j (snd (m f)) f (man d) = f (man d)).
Proof.
  intros [->| ->] Hg m.
  - split; [reflexivity|]. unfold m. cbn. split; intros j; destruct j; auto.
  - unfold m, raw_knn. set (w := d ++ ["_work"%string]) in *.
    erewrite pbind_val by reflexivity. cbn [fst snd].
    assert (Hmk : forall j p, p <> w -> crash j [@SMkdir (gfile W M U) w] f p = f p).
    { intros j p Hp. apply mkdir_other, Hp. }
    assert (Hg1 : chunks_good (run [SMkdir w] f)).
    { apply (good_from f); [exact Hg|]. intros nm. left. apply (Hmk 1%nat). apply work_neq. }
    destruct (knn_wd_spec part argsort val D n k false work (@GChunk W M U) chunk_of_file (fun x => eq_refl)
                chunk resume rnds (run [SMkdir w] f) Hn Hchunk Hg1) as [Hv Hc]. cbn zeta in Hv, Hc.
    split; [exact Hv|]. split; intros j; rewrite crash_app; destruct (j <? _)%nat.
    + apply (good_from f); [exact Hg|]. intros nm. left. apply Hmk, work_neq.
    + apply Hc.
    + apply Hmk. unfold man, w. apply app_neq. discriminate.
    + rewrite crash_untouched.
      * apply (Hmk 1%nat). unfold man, w. apply app_neq. discriminate.
      * intros s Hs Ht. eapply knn_wd_touches in Hs; [|exact Ht]. unfold man in Hs. destruct Hs as [E|[nm E]].
        -- symmetry in E. revert E. apply work_neq0.
        -- symmetry in E. revert E. apply work_neq.
Qed.

Lemma build_spec ls sub size resume rndm rnds f : listing_ok ls d -> 0 <= size -> inv f ->
  let m := build_graph (raw_knn part argsort val D n k chunk resume rnds) finish user ls sub d size true resume rndm in
  value m f = expected /\ (forall j, inv (crash j (snd (m f)) f)) /\
  (forall g, expected = Ok g -> exists mf, load (after m f) d = Ok (g, mf)).
Proof.
  intros Hls Hsz Hinv m. unfold value, after, m, build_graph.
  erewrite pbind_val by reflexivity. cbn [fst snd app andb run fold_left].
  change (fold_left exec [] f) with f. unfold entry_exists, exists_path. fold (man d).
  destruct Hinv as [[Hm Hg]|(g & mf & He & Hl)].
  2: { assert (E : exists x, f (man d) = Some x).
       { unfold load in Hl. fold (man d) in Hl. destruct (f (man d)); [eauto|discriminate]. }
       destruct E as [x ->]. cbn [fst snd]. rewrite Hl. cbn [bind]. split; [auto|]. split.
       - intros j. right. exists g, mf. split; [exact He|]. destruct j; exact Hl.
       - intros g' Hg'. exists mf. cbn. congruence. }
  rewrite Hm. cbn [fst snd].
  (* the work directory *)
  set (wdm := if resume then _ else _).
  assert (Hwd : exists wd s0, wdm f = (Ok wd, s0) /\ (wd = None \/ wd = Some (d ++ ["_work"%string])) /\
            forall j p, p <> d -> p <> d ++ ["_work"%string] -> crash j s0 f p = f p).
  { unfold wdm. destruct resume.
    - eexists _, _. split; [reflexivity|]. split; [right; reflexivity|]. intros j p H1 H2. rewrite app_nil_r.
      apply crash_untouched. intros s [<-|[<-|[]]]; cbn; congruence.
    - eexists _, _. split; [reflexivity|]. split; [left; reflexivity|]. intros [] p _ _; reflexivity. }
  destruct Hwd as (wd & s0 & Ewd & Hwd & H0). erewrite pbind_val by exact Ewd. cbn [fst snd].
  set (f1 := run s0 f).
  assert (H0' : forall p, p <> d -> p <> d ++ ["_work"%string] -> f1 p = f p).
  { intros p P1 P2. unfold f1. rewrite <- (crash_all (List.length s0)) by lia. apply H0; assumption. }
  assert (Hman : man d <> d /\ man d <> d ++ ["_work"%string]).
  { unfold man. split; [apply app_neq_dir|apply app_neq; discriminate]. }
  assert (Hg1 : chunks_good f1).
  { apply (good_from f); [exact Hg|]. intros nm. left. apply H0'; apply work_neq. }
  assert (Hm1 : f1 (man d) = None) by (rewrite H0' by apply Hman; exact Hm).
  assert (Hcr0 : forall j, inv (crash j s0 f)).
  { intros j. left. split; [rewrite H0 by apply Hman; exact Hm|].
    apply (good_from f); [exact Hg|]. intros nm. left. apply H0; apply work_neq. }
  destruct (raw_spec resume rnds wd f1 Hwd Hg1) as (Rv & Rg & Rm). cbn zeta in Rv, Rg, Rm.
  destruct (raw_knn part argsort val D n k chunk resume rnds wd f1) as [rv s1] eqn:Er. cbn [fst snd] in Rv, Rg, Rm.
  set (f2 := run s1 f1).
  assert (Hg2 : chunks_good f2) by (specialize (Rg (List.length s1)); rewrite crash_all in Rg by lia; exact Rg).
  assert (Hm2 : f2 (man d) = None) by (specialize (Rm (List.length s1)); rewrite crash_all in Rm by lia; unfold f2; congruence).
  assert (Hcr1 : forall j, inv (crash j s1 f1)).
  { intros j. left. split; [rewrite Rm; exact Hm1|apply Rg]. }
  unfold expected. rewrite <- Rv. destruct rv as [l|er].
  2: { erewrite pbind_err by exact Er. cbn [fst snd bind]. split; [reflexivity|]. split; [|discriminate].
       intros j. rewrite crash_app. destruct (j <? _)%nat; [apply Hcr0|apply Hcr1]. }
  erewrite pbind_val by exact Er. fold f2. cbn [fst snd bind].
  destruct (finish l) as [g|er] eqn:Ef.
  2: { erewrite pbind_err by reflexivity. cbn [fst snd]. split; [reflexivity|]. split; [|discriminate].
       intros j. rewrite crash_app. destruct (j <? _)%nat; [apply Hcr0|]. rewrite app_nil_r. apply Hcr1. }
  erewrite pbind_val by reflexivity. cbn [fst snd app]. change (run [] f2) with f2.
  pose proof (Hfinish l g Ef) as Hv.
  destruct (save ls sub d size g user true rndm f2) as [su s3] eqn:Es.
  assert (Esu : su = Ok tt) by (rewrite save_eq in Es; congruence). subst su.
  erewrite pbind_val by exact Es. unfold pret. cbn [fst snd]. rewrite app_nil_r.
  assert (Hexp : expected = Ok g) by (unfold expected; rewrite <- Rv; exact Ef).
  split; [reflexivity|]. split.
  - intros j. rewrite crash_app. destruct (j <? _)%nat; [apply Hcr0|]. fold f1.
    rewrite crash_app. destruct (_ <? _)%nat; [apply Hcr1|]. fold f2.
    match goal with |- inv (crash ?j0 s3 f2) => generalize j0 end. intros j3.
    assert (Hdeep : chunks_good (crash j3 s3 f2)).
    { apply (good_from f2); [exact Hg2|]. intros nm.
      pose proof (save_deep ls sub d size g user rndm f2 j3 (work ++ [nm])) as Hd. rewrite Es in Hd. cbn [snd] in Hd.
      apply Hd; apply work_neq. }
    pose proof (save_phases ls sub d size g user rndm f2 j3 Hls) as Hp. rewrite Es in Hp. cbn [snd] in Hp.
    cbn zeta in Hp. destruct Hp as [Hp|[Hp|Hp]].
    + left. split; [|exact Hdeep]. destruct (Hp (man d)) as [E|E]; [apply Hman|congruence|exact E].
    + left. split; [exact Hp|exact Hdeep].
    + right. exists g. eexists. split; [exact Hexp|]. apply load_complete; [exact Hsz|exact Hv|exact Hp].
  - intros g' [= <-]. exists (manifest_of size g user). apply load_complete; [exact Hsz|exact Hv|].
    match goal with |- context [fold_left exec ?l f] => change (fold_left exec l f) with (run l f) end.
    rewrite !run_app. fold f1. fold f2. pose proof (save_done ls sub d size g user rndm f2 Hls) as Hd.
    unfold after in Hd. rewrite Es in Hd. exact Hd.
Qed.
End Build.
End Cache.
