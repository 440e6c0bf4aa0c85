(* C23-C25, C49, C50: neighbour graphs. *)
From Coq Require Import String ZifyBool ZifyNat.
From Verif Require Import Prelude ListFacts FsModel FsFacts GraphOpsModel KnnModel KnnSpec KnnProofs.
Local Open Scope Z_scope.
Local Open Scope list_scope.

(* ------------------------------------------------------------------------------------ C23 *)
(* part, argsort: any implementations meeting numpy's contracts.  val: any map (np.sqrt for the
   euclidean metric, the identity for cosine).  D: any table of finite distances. *)
Theorem C23_knn_exact : forall part argsort val D n k include_self chunk,
  part_ok part -> argsort_ok argsort ->
  finite_distances D n include_self -> 0 <= n -> 0 < chunk ->
  exists l, knn_numpy part argsort val D n k include_self chunk = Ok l /\
    (forall i j d, In ((i, j), d) l -> 0 <= i < n) /\
    forall i, 0 <= i < n ->
      lenZ (targets l i) = Z.max 0 (Z.min k (if include_self then n else n - 1)) /\
      NoDup (targets l i) /\
      (forall j d, In ((i, j), d) l -> eligible n include_self i j /\ exists x, D i j = Some x /\ d = val x) /\
      (forall j j' x y, In j (targets l i) -> eligible n include_self i j' -> ~ In j' (targets l i) ->
         D i j = Some x -> D i j' = Some y -> x <= y) /\
      StronglySorted Z.le (lengths l i).
Proof.
  intros part argsort val D n k b c Hp Hs Hf Hn Hc.
  destruct (knn_numpy_total part argsort val D n k b c Hn Hc) as [l Hl]. exists l. split; [exact Hl|].
  pose proof (knn_numpy_eq part argsort val D n k b c l Hn Hc Hl) as E.
  destruct (k_eff n k b <=? 0) eqn:Ek.
  - subst l. split; [intros i j d []|]. intros i Hi. unfold targets, lengths. cbn.
    split; [unfold k_eff in Ek; destruct b; lia|]. split; [constructor|].
    split; [intros j d []|]. split; [intros j j' x y []|constructor].
  - assert (Hk : 0 < k_eff n k b) by lia. split.
    { intros i j d H. rewrite E in H. apply in_flat_map in H. destruct H as [i' [Hi' H]].
      apply (knn_row_src part argsort val D Hs) in H. cbn in H. subst i'. apply arange_In, Hi'. }
    intros i Hi. pose proof (source_rows part argsort val D Hs n k b i l Hi Hk E) as Hr.
    unfold targets, lengths. rewrite Hr.
    destruct (knn_row_any part argsort val D Hp Hs n k b i Hi Hk) as (H1 & H2 & H3 & H4).
    pose proof (knn_row_finite part argsort val D Hp Hs n k b i Hi Hk Hf) as H5.
    destruct (chosen_facts part argsort val D Hp Hs n k b i Hn Hk) as (_ & H6 & _ & _).
    split; [|split; [exact H1|split; [|split; [|exact H4]]]].
    + rewrite H5, H6. unfold k_eff in *. destruct b; lia.
    + intros j d H. apply H3. rewrite <- Hr. apply filter_In. split; [exact H|apply Z.eqb_refl].
    + rewrite H5. intros j j' x y. apply (nearest part argsort val D Hp Hs n k b i j j' x y Hi Hk Hf).
Qed.

(* whatever the distances are, nan and inf included: never more than k out-neighbours, no self edge, only
   finite distances are reported *)
Theorem C23_knn_any_distances : forall part argsort val D n k include_self chunk l i,
  part_ok part -> argsort_ok argsort -> 0 <= n -> 0 < chunk -> 0 <= i < n ->
  knn_numpy part argsort val D n k include_self chunk = Ok l ->
  lenZ (targets l i) <= Z.max 0 (Z.min k (if include_self then n else n - 1)) /\
  NoDup (targets l i) /\
  forall j d, In ((i, j), d) l -> eligible n include_self i j /\ exists x, D i j = Some x /\ d = val x.
Proof.
  intros part argsort val D n k b c l i Hp Hs Hn Hc Hi Hl.
  pose proof (knn_numpy_eq part argsort val D n k b c l Hn Hc Hl) as E.
  destruct (k_eff n k b <=? 0) eqn:Ek.
  - subst l. unfold targets. cbn. split; [lia|]. split; [constructor|intros j d []].
  - assert (Hk : 0 < k_eff n k b) by lia.
    pose proof (source_rows part argsort val D Hs n k b i l Hi Hk E) as Hr. unfold targets. rewrite Hr.
    destruct (knn_row_any part argsort val D Hp Hs n k b i Hi Hk) as (H1 & H2 & H3 & H4).
    split; [|split; [exact H1|]].
    + unfold lenZ in *. rewrite map_length. unfold k_eff in *. destruct b; lia.
    + intros j d H. apply H3. rewrite <- Hr. apply filter_In. split; [exact H|apply Z.eqb_refl].
Qed.

Theorem C23_chunk_independent : forall part argsort val D n k include_self chunk chunk',
  0 <= n -> 0 < chunk -> 0 < chunk' ->
  knn_numpy part argsort val D n k include_self chunk = knn_numpy part argsort val D n k include_self chunk'.
Proof.
  intros part argsort val D n k b c c' Hn Hc Hc'.
  destruct (knn_numpy_total part argsort val D n k b c Hn Hc) as [l Hl].
  destruct (knn_numpy_total part argsort val D n k b c' Hn Hc') as [l' Hl'].
  rewrite Hl, Hl'. rewrite (knn_numpy_eq _ _ _ _ _ _ _ _ _ Hn Hc Hl), (knn_numpy_eq _ _ _ _ _ _ _ _ _ Hn Hc' Hl').
  reflexivity.
Qed.

(* a negative chunk size is not rejected: the graph silently has no edges *)
Theorem C23_negative_chunk_refuted : exists part argsort val D n k chunk,
  part_ok part /\ argsort_ok argsort /\ finite_distances D n false /\ chunk < 0 /\ 0 < k /\ 1 < n /\
  knn_numpy part argsort val D n k false chunk = Ok [].
Proof.
  exists ref_part, ref_argsort, (fun x => x), (fun i j => Some (Z.abs (i - j))), 4, 2, (-1).
  split; [exact ref_part_ok|]. split; [exact ref_argsort_ok|].
  split; [intros i j _ _; eauto|]. repeat split; lia || reflexivity.
Qed.

(* the contracts can be met, and the construction does something: five points on a line *)
Definition line_D (i j : Z) : dist := Some (Z.abs (i * i - j * j)).
Example C23_example_contracts : part_ok ref_part /\ argsort_ok ref_argsort /\ finite_distances line_D 5 false.
Proof. split; [exact ref_part_ok|]. split; [exact ref_argsort_ok|]. intros i j _ _. unfold line_D. eauto. Qed.
Example C23_example :
  knn_numpy ref_part ref_argsort (fun x => x) line_D 5 2 false 2 =
  Ok [((0,1),1); ((0,2),4); ((1,0),1); ((1,2),3); ((2,1),3); ((2,0),4); ((3,2),5); ((3,4),7); ((4,3),7); ((4,2),12)].
Proof. vm_compute. reflexivity. Qed.

(* ------------------------------------------------------------------------------------ C24 *)
(* one attempt: any chunk size, resume on or off, any temporary names, killed after any number of steps *)
Record attempt := { a_chunk : Z; a_resume : bool; a_names : Z -> string; a_killed_at : nat }.
Definition killed_run {V} part argsort val D (enc : list (edge * Z) -> V) decd n k include_self wd
    (f : fs V) (a : attempt) :=
  crash (a_killed_at a)
    (snd (knn_numpy_wd part argsort val D enc decd n k include_self (a_chunk a) wd (a_resume a) (a_names a) f)) f.

(* after any number of killed attempts in a directory that had no chunk files at first, a run returns
   exactly the uninterrupted result; no contract on argpartition or argsort is needed.  enc and decd:
   what savez_compressed stores for a chunk and what np.load returns for it *)
Theorem C24_resume_same_edges : forall (V : Type) (enc : list (edge * Z) -> V) decd
    part argsort val D n k include_self wd f0 attempts chunk resume names,
  (forall chunk_edges, decd (enc chunk_edges) = Ok chunk_edges) ->
  0 <= n -> 0 < chunk -> Forall (fun a => 0 < a_chunk a) attempts ->
  (forall name, f0 (wd ++ [name]) = None) ->
  value (knn_numpy_wd part argsort val D enc decd n k include_self chunk wd resume names)
        (fold_left (killed_run part argsort val D enc decd n k include_self wd) attempts f0)
  = knn_numpy part argsort val D n k include_self chunk.
Proof.
  intros V enc decd part argsort val D n k b wd f0 atts c resume names Hdec Hn Hc Ha H0.
  assert (Hg : good part argsort val D n k b wd enc f0) by (intros x y; left; apply H0).
  clear H0. revert f0 Hg. induction Ha as [|a r Hca _ IH]; intros f0 Hg; cbn [fold_left].
  - apply (knn_wd_spec part argsort val D n k b wd enc decd Hdec c resume names f0 Hn Hc Hg).
  - apply IH. unfold killed_run.
    apply (knn_wd_spec part argsort val D n k b wd enc decd Hdec (a_chunk a) (a_resume a) (a_names a) f0 Hn Hca Hg).
Qed.

(* the chunk files carry neither k, the metric nor the data: resuming with another k in the same directory
   returns the old edges *)
Theorem C24_stale_directory_refuted : exists part argsort val D n k k' chunk wd names f0,
  part_ok part /\ argsort_ok argsort /\ finite_distances D n false /\ 0 < chunk /\
  (forall name, f0 (wd ++ [name]) = None) /\
  let f1 := after (knn_numpy_wd part argsort val D (fun x => x) Ok n k false chunk wd true names) f0 in
  value (knn_numpy_wd part argsort val D (fun x => x) Ok n k' false chunk wd true names) f1
  <> knn_numpy part argsort val D n k' false chunk.
Proof.
  exists ref_part, ref_argsort, (fun x => x), line_D, 3, 1, 2, 8, ["w"%string], (fun _ => "t"%string), (fun _ => None).
  split; [exact ref_part_ok|]. split; [exact ref_argsort_ok|].
  split; [intros i j _ _; unfold line_D; eauto|]. split; [lia|]. split; [reflexivity|].
  vm_compute. discriminate.
Qed.

Example C24_example :
  let names := fun s => if s =? 0 then "x"%string else "y"%string in
  let f1 := killed_run ref_part ref_argsort (fun x => x) line_D (fun x => x) Ok 5 2 false ["w"%string] (fun _ => None)
              {| a_chunk := 2; a_resume := true; a_names := names; a_killed_at := 6 |} in
  exists_path f1 ["w"%string; "knn_0_2.npz"%string] = true /\
  exists_path f1 ["w"%string; "knn_2_4.npz"%string] = false /\
  f1 ["w"%string; "knn_2_4.npzy.tmp.npz"%string] <> None /\
  value (knn_numpy_wd ref_part ref_argsort (fun x => x) line_D (fun x => x) Ok 5 2 false 2 ["w"%string] true names) f1 =
  knn_numpy ref_part ref_argsort (fun x => x) line_D 5 2 false 2.
Proof. vm_compute. repeat split; discriminate. Qed.

(* ------------------------------------------------------------------------------------ C25 *)
Theorem C25_numpy_degree : forall part argsort val D n k chunk l i,
  part_ok part -> argsort_ok argsort -> 0 <= n -> 0 < chunk -> 0 <= i < n -> 0 <= k ->
  knn_numpy part argsort val D n k false chunk = Ok l -> lenZ (targets l i) <= k /\ ~ In i (targets l i).
Proof.
  intros part argsort val D n k c l i Hp Hs Hn Hc Hi Hk Hl.
  destruct (C23_knn_any_distances part argsort val D n k false c l i Hp Hs Hn Hc Hi Hl) as (H1 & _ & H2).
  split; [lia|]. intros H. unfold targets in H. apply in_map_iff in H. destruct H as [[[a b] d] [Eb H]].
  apply filter_In in H. destruct H as [H Ea]. cbn in *. assert (a = i) by lia. subst.
  destruct (H2 i d H) as [[_ [E|E]] _]; [discriminate|congruence].
Qed.
(* faiss: whatever the index returns *)
Theorem C25_faiss_degree : forall search n k i, 0 <= i < n -> 0 <= k ->
  lenZ (targets (knn_faiss search n k false) i) <= k /\ ~ In i (targets (knn_faiss search n k false) i).
Proof.
  intros s n k i Hi Hk. rewrite faiss_targets by exact Hi. split.
  - unfold faiss_row, lenZ. pose proof (filter_length_le (fun j => 0 <=? j)
      (map fst (firstn (Z.to_nat k) (filter (fun q => negb (i =? fst q)) (s i (Z.min (k + 1) n)))))) as H.
    rewrite map_length, firstn_length in H. lia.
  - intros H. apply filter_In in H. destruct H as [H _]. apply in_map_iff in H. destruct H as [q [E H]].
    unfold faiss_row in H. apply firstn_In in H. apply filter_In in H. destruct H as [_ H].
    rewrite E, Z.eqb_refl in H. discriminate.
Qed.
Theorem C25_faiss_degree_with_self : forall search n k i, search_ok search -> 0 <= i < n -> 0 <= k ->
  lenZ (targets (knn_faiss search n k true) i) <= k.
Proof.
  intros s n k i Hs Hi Hk. rewrite faiss_targets by exact Hi. unfold faiss_row.
  pose proof (filter_length_le (fun j => 0 <=? j) (map fst (s i k))) as H.
  pose proof (Hs i k Hk). unfold lenZ in *. rewrite map_length in H. lia.
Qed.
(* sklearn: at most k + 1; at most k when no two points coincide *)
Theorem C25_sklearn_degree_partial : forall D n neighbors k i,
  kneighbors_ok D n neighbors -> 0 <= i < n -> 0 <= k ->
  ~ In i (targets (knn_sklearn neighbors n k false) i) /\
  lenZ (targets (knn_sklearn neighbors n k false) i) <= k + 1 /\
  (distinct_points D n -> lenZ (targets (knn_sklearn neighbors n k false) i) = Z.min k (n - 1)).
Proof.
  intros D n nb k i Hnb Hi Hk. rewrite sklearn_targets by exact Hi. cbn [orb].
  set (m := Z.min n (k + 1)). assert (Hm : 1 <= m <= n) by lia.
  destruct (Hnb i m Hi Hm) as (H1 & H2 & H3 & H4 & H5). set (ids := map fst (nb i m)) in *.
  split; [|split].
  - intros H. apply filter_In in H. destruct H as [_ H]. rewrite Z.eqb_refl in H. discriminate.
  - pose proof (filter_length_le (fun j => negb (j =? i)) ids). unfold lenZ in *. lia.
  - intros Hd. assert (Hin : In i ids).
    { destruct (in_dec Z.eq_dec i ids) as [H|H]; [exact H|]. exfalso.
      destruct ids as [|j r] eqn:E; [unfold lenZ in H2; cbn in H2; lia|].
      assert (Hj : In j ids) by (rewrite E; left; reflexivity).
      unfold ids in Hj. apply in_map_iff in Hj. destruct Hj as [[j' d] [Ej Hj]]. cbn in Ej; subst j'.
      apply H3 in Hj. destruct Hj as [Hj _]. assert (j <> i) by (intros ->; apply H; left; reflexivity).
      pose proof (H5 j i (or_introl eq_refl) Hi H) as Hle. pose proof (Hd i j Hi Hj ltac:(congruence)). lia. }
    rewrite (filter_neq_length ids i H1 Hin). lia.
Qed.
(* with coinciding points the point itself need not be among the answers, so all k + 1 are kept *)
Theorem C25_sklearn_refuted : exists D n neighbors k i,
  kneighbors_ok D n neighbors /\ 0 <= i < n /\ 0 < k < n /\
  k < lenZ (targets (knn_sklearn neighbors n k false) i).
Proof.
  exists (fun _ _ => 0), 3, (fun _ m => map (fun j => (j, 0)) (arange m)), 1, 2.
  split; [|split; [lia|split; [lia|vm_compute; reflexivity]]].
  intros i m Hi Hm ids. unfold ids. rewrite map_map. cbn [fst]. rewrite map_id.
  split; [apply arange_NoDup|]. split; [unfold lenZ; rewrite arange_length; lia|].
  split; [|split].
  - intros j d H. apply in_map_iff in H. destruct H as [x [E H]]. apply arange_In in H. inversion E; subst. lia.
  - rewrite map_map. cbn. induction (arange m) as [|x l IH]; cbn; constructor; [exact IH|].
    apply Forall_forall. intros y Hy. apply in_map_iff in Hy. destruct Hy as [z [<- _]]. lia.
  - intros. lia.
Qed.
Example C25_example : (* four different points; the backend answers honestly *)
  let nb := fun i m => firstn (Z.to_nat m)
              (map (fun j => (j, Z.abs (i - j))) (ref_argsort (map (fun j => Some (Z.abs (i - j))) (arange 4)))) in
  targets (knn_sklearn nb 4 2 false) 1 = [0; 2] /\ lenZ (targets (knn_sklearn nb 4 2 false) 0) = 2.
Proof. vm_compute. split; reflexivity. Qed.

(* ------------------------------------------------------------------------------------ C49 *)
(* epsilon graph: exactly the pairs within the radius, each once, whatever the chunk size *)
Theorem C49_epsilon_exact : forall val D n r include_self chunk,
  0 <= n -> 0 < chunk ->
  exists l, eps_numpy val D n true r include_self chunk = Ok l /\
    NoDup (map fst l) /\
    forall i j d, In ((i, j), d) l <->
      0 <= i < n /\ eligible n include_self i j /\ exists x, D i j = Some x /\ x <= r /\ d = val x.
Proof.
  intros val D n r b c Hn Hc. destruct (eps_numpy_total val D n r b c Hn Hc) as [l Hl]. exists l.
  split; [exact Hl|]. rewrite (eps_numpy_eq val D n r b c l Hn Hc Hl). split.
  - apply (NoDup_rows (eps_row val D n r b)).
    + intros x p H. destruct p as [[a y] d]. apply in_eps_row in H. tauto.
    + intros x. apply eps_row_nodup.
    + apply arange_NoDup.
  - intros i j d. rewrite in_flat_map. split.
    + intros [x [Hx H]]. apply arange_In in Hx. apply in_eps_row in H. destruct H as (-> & H1 & H2). auto.
    + intros (Hi & H1 & H2). exists i. split; [apply arange_In, Hi|]. apply in_eps_row. auto.
Qed.
Theorem C49_chunk_independent : forall val D n r include_self chunk chunk',
  0 <= n -> 0 < chunk -> 0 < chunk' ->
  eps_numpy val D n true r include_self chunk = eps_numpy val D n true r include_self chunk'.
Proof.
  intros val D n r b c c' Hn Hc Hc'.
  destruct (eps_numpy_total val D n r b c Hn Hc) as [l Hl].
  destruct (eps_numpy_total val D n r b c' Hn Hc') as [l' Hl'].
  rewrite Hl, Hl', (eps_numpy_eq _ _ _ _ _ _ _ Hn Hc Hl), (eps_numpy_eq _ _ _ _ _ _ _ Hn Hc' Hl'). reflexivity.
Qed.
(* a symmetric distance table gives a symmetric graph *)
Theorem C49_epsilon_symmetric : forall val D n r include_self chunk l i j d,
  0 <= n -> 0 < chunk -> (forall a b, D a b = D b a) ->
  eps_numpy val D n true r include_self chunk = Ok l ->
  In ((i, j), d) l -> In ((j, i), d) l.
Proof.
  intros val D n r b c l i j d Hn Hc HD Hl. destruct (C49_epsilon_exact val D n r b c Hn Hc) as (l' & Hl' & _ & H).
  rewrite Hl in Hl'. injection Hl' as <-. rewrite !H. unfold eligible. rewrite (HD j i).
  intros (H1 & (H2 & H3) & H4). intuition congruence.
Qed.
Example C49_example :
  eps_numpy (fun x => x) line_D 4 true 4 false 3 =
  Ok [((0,1),1); ((0,2),4); ((1,0),1); ((1,2),3); ((2,0),4); ((2,1),3)].
Proof. vm_compute. reflexivity. Qed.

(* ------------------------------------------------------------------------------------ C50 *)
(* anchor graph: the edges of node i go to the nearest nodes among those that share an anchor with it, at
   most k, never itself unless asked; exact when the candidate limit is not reached *)
Theorem C50_anchor_edges : forall part argsort D anchors choice n m k limit include_self,
  part_ok part -> argsort_ok argsort -> choice_ok choice -> 0 <= n -> 0 <= limit ->
  (forall i a, 0 <= i < n -> In a (anchors i) -> 0 <= a < m) ->
  exists l, anchor_edges part argsort D anchors choice n m k limit include_self = Ok l /\
    (forall i j d, In ((i, j), d) l -> 0 <= i < n) /\
    forall i, 0 <= i < n ->
      NoDup (targets l i) /\
      lenZ (targets l i) <= Z.max 0 (Z.min k limit) /\
      (forall j d, In ((i, j), d) l -> eligible n include_self i j /\ shares_anchor anchors i j /\ d = D i j) /\
      StronglySorted Z.le (lengths l i) /\
      forall candidates, NoDup candidates ->
        (forall j, In j candidates <-> eligible n include_self i j /\ shares_anchor anchors i j) ->
        lenZ (targets l i) = Z.max 0 (Z.min k (Z.min limit (lenZ candidates))) /\
        (lenZ candidates <= limit -> forall j j', In j (targets l i) -> In j' candidates ->
           ~ In j' (targets l i) -> D i j <= D i j').
Proof.
  intros part argsort D ai choice n m k limit b Hp Hs Hc Hn Hl Hai. unfold anchor_edges.
  destruct (n =? 0) eqn:En.
  { exists []. split; [reflexivity|]. split; [intros i j d []|]. intros i Hi. lia. }
  destruct (assign_total D ai n m Hai (arange n)) as [t Ht]; [intros i Hi; apply arange_In, Hi|].
  rewrite Ht. cbn [bind].
  assert (Hrow : forall i, 0 <= i < n -> _) by
    (exact (fun i Hi => anchor_row_spec part argsort D ai choice Hp Hs Hc n m k limit b Hai t i Hl Hi Ht)).
  assert (Htot : exists l, concat_res (anchor_row part argsort D ai choice m k limit b t) (arange n) = Ok l).
  { assert (Hin : forall i, In i (arange n) -> 0 <= i < n) by (intros; apply arange_In; assumption).
    clear Ht. induction (arange n) as [|i r IH]; [eexists; reflexivity|]. cbn.
    destruct (Hrow i (Hin i (or_introl eq_refl))) as (s & -> & _). cbn.
    destruct IH as [r' ->]; [intros; apply Hin; right; assumption|]. eexists; reflexivity. }
  destruct Htot as [l El]. exists l. split; [exact El|].
  assert (Hsrc : forall i j d, In ((i, j), d) l -> 0 <= i < n).
  { intros i j d H. apply (concat_res_in _ _ _ _ El) in H. destruct H as (i' & s & Hi' & Es & H).
    apply arange_In in Hi'. destruct (Hrow i' Hi') as (s' & Es' & Hs' & _). rewrite Es in Es'. injection Es' as <-.
    apply Hs' in H. cbn in H. subst. exact Hi'. }
  split; [exact Hsrc|]. intros i Hi.
  destruct (Hrow i Hi) as (s & Es & R1 & R2 & R3 & R4 & R5 & R6).
  assert (Hf : filter (fun p : edge * Z => fst (fst p) =? i) l = s).
  { assert (Hrow_src : forall x s p, 0 <= x < n -> anchor_row part argsort D ai choice m k limit b t x = Ok s ->
                        In p s -> fst (fst p) = x).
    { intros x s0 p Hx E0 H. destruct (Hrow x Hx) as (s1 & E1 & H1 & _). rewrite E0 in E1. injection E1 as <-. auto. }
    destruct (concat_res_rows' (fun x => 0 <= x < n) _ (arange n) l i Hrow_src
                (fun x => proj1 (arange_In n x)) (arange_NoDup n) (proj2 (arange_In n i) Hi) El) as (s' & E' & Hs').
    rewrite Es in E'. injection E' as <-. exact Hs'. }
  assert (Hc1 : forall j, In j (limited ai choice limit b t i) -> eligible n b i j /\ shares_anchor ai i j).
  { intros j H. apply (cands_in D ai n m b Hai t i j Ht Hi). unfold limited in H.
    destruct (limit <? _) eqn:E; [|exact H]. apply (Permutation_in _ (sortZ_perm _)) in H.
    destruct (Hc i (cands ai b t i) limit) as (_ & Hincl & _); [lia|]. apply Hincl, H. }
  unfold targets, lengths. rewrite Hf.
  split; [exact R3|]. split; [unfold lenZ in *; rewrite map_length; lia|].
  split; [|split; [exact R5|]].
  - intros j d H. assert (Hin : In ((i, j), d) s) by (rewrite <- Hf; apply filter_In; split; [exact H|apply Z.eqb_refl]).
    apply R4 in Hin. destruct Hin as [Hj ->]. destruct (Hc1 j Hj). auto.
  - intros cs Hnd Hcs.
    assert (P : Permutation cs (cands ai b t i)).
    { apply NoDup_Permutation; [exact Hnd|apply cands_nodup|]. intros j. rewrite Hcs.
      symmetry. apply (cands_in D ai n m b Hai t i j Ht Hi). }
    assert (Hlc : lenZ cs = lenZ (cands ai b t i)) by (unfold lenZ; rewrite (Permutation_length P); reflexivity).
    split; [unfold lenZ in *; rewrite map_length; lia|].
    intros Hle j j' Hj Hj' Hn'. apply R6; [exact Hj| |exact Hn'].
    unfold limited. replace (limit <? lenZ (cands ai b t i)) with false by lia. apply (Permutation_in _ P), Hj'.
Qed.
(* a backend that finds no anchor for a node reports -1; that is not dropped, it means the last anchor, so
   unrelated nodes become neighbours *)
Theorem C50_missing_anchor_refuted : exists part argsort D anchors choice n m k limit l,
  part_ok part /\ argsort_ok argsort /\ choice_ok choice /\
  anchor_edges part argsort D anchors choice n m k limit false = Ok l /\
  In (0, 1) (map fst l) /\ ~ shares_anchor anchors 0 1.
Proof.
  exists ref_part, ref_argsort, (fun i j => Z.abs (i - j)), (fun i => if i =? 0 then [-1] else [1]),
    (fun _ cand s => firstn (Z.to_nat s) cand), 2, 2, 1, 10.
  eexists. split; [exact ref_part_ok|]. split; [exact ref_argsort_ok|]. split.
  { intros i cand s Hs. split; [|split].
    - intros H. rewrite <- (firstn_skipn (Z.to_nat s) cand) in H. apply NoDup_app_iff in H. tauto.
    - intros x H. apply firstn_In in H. exact H.
    - unfold lenZ in *. rewrite firstn_length. lia. }
  split; [vm_compute; reflexivity|]. split; [left; reflexivity|].
  intros (a & [<-|[]] & [H|[]]). discriminate.
Qed.
Example C50_example :
  let anchors := fun i => if i <? 3 then [0] else [1] in
  (forall i a, 0 <= i < 6 -> In a (anchors i) -> 0 <= a < 2) /\
  anchor_edges ref_part ref_argsort (fun i j => Z.abs (i - j)) anchors (fun _ c s => firstn (Z.to_nat s) c) 6 2 2 10 false =
  Ok [((0,1),1); ((0,2),2); ((1,0),1); ((1,2),1); ((2,1),1); ((2,0),2);
      ((3,4),1); ((3,5),2); ((4,3),1); ((4,5),1); ((5,4),1); ((5,3),2)].
Proof.
  split; [|vm_compute; reflexivity]. cbn. intros i a _. destruct (i <? 3); intros [<-|[]]; lia.
Qed.

Print Assumptions C23_knn_exact.
Print Assumptions C23_knn_any_distances.
Print Assumptions C23_chunk_independent.
Print Assumptions C23_negative_chunk_refuted.
Print Assumptions C24_resume_same_edges.
Print Assumptions C24_stale_directory_refuted.
Print Assumptions C25_numpy_degree.
Print Assumptions C25_faiss_degree.
Print Assumptions C25_faiss_degree_with_self.
Print Assumptions C25_sklearn_degree_partial.
Print Assumptions C25_sklearn_refuted.
Print Assumptions C49_epsilon_exact.
Print Assumptions C49_chunk_independent.
Print Assumptions C49_epsilon_symmetric.
Print Assumptions C50_anchor_edges.
Print Assumptions C50_missing_anchor_refuted.
