(* Evaluation metrics: the properties. *)
From Coq Require Import QArith String.
From Verif Require Import Prelude ListFacts SampleServiceProofs QFacts MetricsModel MetricsSpec MetricsProofs.
Local Open Scope Z_scope.
Local Open Scope list_scope.

(* C33: the three metrics are the textbook ones, averaged over the classes of the true labels *)
Theorem C33_textbook y_true y_pred cs : List.length y_true = List.length y_pred -> y_true <> [] ->
  classes_of (combine y_true y_pred) cs ->
  same_score (accuracy y_true y_pred) (Some (ratio (how_many (fun p => fst p =? snd p) (combine y_true y_pred)) (lenZ y_true))) /\
  same_score (balanced_accuracy y_true y_pred) (Some (Qmean (map (recall (combine y_true y_pred)) cs))) /\
  same_score (macro_f1 y_true y_pred) (Some (Qmean (map (f1 (combine y_true y_pred)) cs))).
Proof.
  intros Hl Hy Hc. destruct (accuracy_spec y_true y_pred Hl Hy) as (x & Ex & Hx). destruct (macro_spec y_true y_pred Hl Hy) as (m & Em & Hm).
  rewrite Ex, Em, (balanced_spec y_true y_pred Hl Hy). cbn [same_score]. split; [exact Hx|]. split.
  - eapply mean_classes; [apply cs_classes, Hl|exact Hc].
  - rewrite Hm. eapply mean_classes; [apply cs_classes, Hl|exact Hc].
Qed.
(* C33: they are numbers between 0 and 1, and not a number exactly when there is no sample *)
Theorem C33_in_unit_interval y_true y_pred : List.length y_true = List.length y_pred ->
  forall metric, In metric [accuracy; balanced_accuracy; macro_f1] ->
  match metric y_true y_pred with None => y_true = [] | Some x => y_true <> [] /\ (0 <= x <= 1)%Q end.
Proof.
  intros Hl metric Hin. destruct y_true as [|a l] eqn:Ey; [destruct Hin as [<-|[<-|[<-|[]]]]; reflexivity|]. rewrite <- Ey in *.
  assert (Hy : y_true <> []) by (rewrite Ey; discriminate).
  assert (Hpos : forall c, In c (uniqueZ y_true) -> 0 < truly c (combine y_true y_pred)) by (intros c Hc; apply truly_pos, (cs_classes _ _ Hl), Hc).
  assert (Hu : forall F : Z -> Q, map F (uniqueZ y_true) <> []) by (intros F E; apply map_eq_nil in E; exact (unique_ne _ Hy E)).
  destruct Hin as [<-|[<-|[<-|[]]]].
  - unfold accuracy. rewrite Ey. rewrite <- Ey. split; [exact Hy|]. apply Qmean_range.
    + intros E. apply map_eq_nil in E. exact (combine_ne _ _ Hl Hy E).
    + intros x Hx. apply in_map_iff in Hx. destruct Hx as (q & <- & _). destruct (fst q =? snd q); split; discriminate.
  - rewrite (balanced_spec _ _ Hl Hy). split; [exact Hy|]. apply Qmean_range; [apply Hu|].
    intros x Hx. apply in_map_iff in Hx. destruct Hx as (c & <- & Hc). apply recall_range, Hpos, Hc.
  - destruct (macro_spec _ _ Hl Hy) as (x & -> & Hx). split; [exact Hy|]. rewrite Hx. apply Qmean_range; [apply Hu|].
    intros z Hz. apply in_map_iff in Hz. destruct Hz as (c & <- & Hc). apply f1_range, Hpos, Hc.
Qed.
(* C33: each of them is 1 exactly when every prediction is right *)
Theorem C33_one_iff_perfect y_true y_pred : List.length y_true = List.length y_pred -> y_true <> [] ->
  forall metric, In metric [accuracy; balanced_accuracy; macro_f1] ->
  (same_score (metric y_true y_pred) (Some 1%Q) <-> y_pred = y_true).
Proof.
  intros Hl Hy.
  assert (Hall : all_right (combine y_true y_pred) <-> y_pred = y_true).
  { clear Hy. unfold all_right. revert y_pred Hl. induction y_true as [|a l IH]; intros [|b p] Hl; try discriminate; [cbn; tauto|].
    cbn. injection Hl as Hl. split.
    - intros H. assert (a = b) by (apply H; left; reflexivity). f_equal; [congruence|]. apply (IH p Hl). intros u v Huv. apply H. right. exact Huv.
    - intros [= -> ->] u v [[= <- <-]|Huv]; [reflexivity|]. apply (proj2 (IH l Hl) eq_refl), Huv. }
  assert (Hpos : forall c, In c (uniqueZ y_true) -> 0 < truly c (combine y_true y_pred)) by (intros c Hc; apply truly_pos, (cs_classes _ _ Hl), Hc).
  assert (Hu : forall F : Z -> Q, map F (uniqueZ y_true) <> []) by (intros F E; apply map_eq_nil in E; exact (unique_ne _ Hy E)).
  assert (Hmean : forall F : Z -> Q, (forall c, In c (uniqueZ y_true) -> 0 <= F c <= 1)%Q ->
     (Qmean (map F (uniqueZ y_true)) == 1 <-> forall c, In c (uniqueZ y_true) -> F c == 1)%Q).
  { intros F HF. rewrite Qmean_one; [|apply Hu|intros x Hx; apply in_map_iff in Hx; destruct Hx as (c & <- & Hc); apply HF, Hc].
    split; [intros H c Hc; apply H, in_map, Hc|intros H x Hx; apply in_map_iff in Hx; destruct Hx as (c & <- & Hc); apply H, Hc]. }
  intros metric [<-|[<-|[<-|[]]]].
  - destruct y_true as [|a l] eqn:Ey; [congruence|]. rewrite <- Ey in *. unfold accuracy. rewrite Ey. rewrite <- Ey. cbn [same_score].
    rewrite Qmean_one.
    + rewrite <- Hall. split.
      * intros H u v Huv. assert (E : ((if u =? v then 1 else 0) == 1)%Q).
        { apply H. apply in_map_iff. exists (u, v). auto. }
        destruct (Z.eqb_spec u v); [assumption|discriminate].
      * intros H x Hx. apply in_map_iff in Hx. destruct Hx as ([u v] & <- & Huv). cbn. rewrite (H u v Huv), Z.eqb_refl. reflexivity.
    + intros E. apply map_eq_nil in E. exact (combine_ne _ _ Hl Hy E).
    + intros x Hx. apply in_map_iff in Hx. destruct Hx as (q & <- & _). destruct (fst q =? snd q); split; discriminate.
  - rewrite (balanced_spec _ _ Hl Hy). cbn [same_score]. rewrite Hmean by (intros c Hc; apply recall_range, Hpos, Hc).
    rewrite <- Hall, (right_by_class _ _ (cs_classes _ _ Hl)). split; intros H c Hc; apply recall_one; auto.
  - destruct (macro_spec _ _ Hl Hy) as (x & -> & Hx). cbn [same_score]. rewrite Hx, Hmean by (intros c Hc; apply f1_range, Hpos, Hc).
    rewrite <- Hall. split.
    + intros H. apply (right_by_class _ _ (cs_classes _ _ Hl)). intros c Hc. apply f1_one_right; [apply Hpos, Hc|apply H, Hc].
    + intros H c Hc. pose proof (Hpos c Hc). unfold f1. apply ratio_one; [pose proof (hits_le c (combine y_true y_pred)); lia|].
      rewrite (all_right_predicted _ _ H). rewrite (proj2 (hits_all c _)); [lia|]. intros b Hb. symmetry. apply H, Hb.
Qed.
(* C33: the order of the samples does not matter *)
Theorem C33_order_irrelevant y_true y_pred y_true' y_pred' : List.length y_true = List.length y_pred ->
  List.length y_true' = List.length y_pred' -> Permutation (combine y_true y_pred) (combine y_true' y_pred') ->
  forall metric, In metric [accuracy; balanced_accuracy; macro_f1] ->
  same_score (metric y_true y_pred) (metric y_true' y_pred').
Proof.
  intros Hl Hl' HP metric Hin. pose proof (combine_permute _ _ _ _ Hl Hl' HP) as Hy.
  destruct y_true as [|a l] eqn:E.
  { apply Permutation_nil in Hy. subst. destruct Hin as [<-|[<-|[<-|[]]]]; exact I. }
  rewrite <- E in *. assert (N : y_true <> []) by (rewrite E; discriminate).
  assert (N' : y_true' <> []) by (intros ->; apply Permutation_sym, Permutation_nil in Hy; contradiction).
  destruct Hin as [<-|[<-|[<-|[]]]].
  - destruct (accuracy_spec _ _ Hl N) as (x & -> & Hx), (accuracy_spec _ _ Hl' N') as (x' & -> & Hx'). cbn [same_score].
    rewrite Hx, Hx', (how_many_perm _ _ _ HP), (lenZ_perm _ _ Hy). reflexivity.
  - rewrite (balanced_spec _ _ Hl N), (balanced_spec _ _ Hl' N'). cbn [same_score]. rewrite (unique_perm _ _ Hy). apply Qmean_ext.
    intros c _. unfold recall, hits, truly. rewrite !(how_many_perm _ _ _ HP). reflexivity.
  - destruct (macro_spec _ _ Hl N) as (x & -> & Hx), (macro_spec _ _ Hl' N') as (x' & -> & Hx'). cbn [same_score].
    rewrite Hx, Hx', (unique_perm _ _ Hy). apply Qmean_ext. intros c _. unfold f1, hits, truly, predicted. rewrite !(how_many_perm _ _ _ HP). reflexivity.
Qed.
(* C33: neither do the class numbers: renaming the classes consistently changes nothing *)
Theorem C33_class_ids_irrelevant f y_true y_pred : (forall a b, f a = f b -> a = b) -> List.length y_true = List.length y_pred ->
  forall metric, In metric [accuracy; balanced_accuracy; macro_f1] ->
  same_score (metric (map f y_true) (map f y_pred)) (metric y_true y_pred).
Proof.
  intros Hf Hl metric Hin. destruct y_true as [|a l] eqn:E; [destruct Hin as [<-|[<-|[<-|[]]]]; exact I|]. rewrite <- E in *.
  assert (N : y_true <> []) by (rewrite E; discriminate). assert (N' : map f y_true <> []) by (intros H; apply map_eq_nil in H; contradiction).
  assert (Hl' : List.length (map f y_true) = List.length (map f y_pred)) by (rewrite !map_length; exact Hl).
  pose proof (cs_classes _ _ Hl) as C. pose proof (classes_ren f Hf _ _ C) as C'. rewrite <- (ren_combine f) in C'.
  destruct (C33_textbook _ _ _ Hl N C) as (A1 & A2 & A3). destruct (C33_textbook _ _ _ Hl' N' C') as (B1 & B2 & B3).
  assert (T : forall a b c d, same_score a (Some c) -> same_score b (Some d) -> (c == d)%Q -> same_score b a).
  { intros [u|] [v|] c d; cbn; intros X Y W; try contradiction. rewrite X, Y, W. reflexivity. }
  destruct Hin as [<-|[<-|[<-|[]]]].
  - eapply T; [exact A1|exact B1|]. rewrite (ren_combine f).
    rewrite (how_many_ren f Hf (fun q => fst q =? snd q) (fun q => fst q =? snd q)) by (intros u v; cbn; apply feq, Hf). unfold lenZ. rewrite map_length. reflexivity.
  - eapply T; [exact A2|exact B2|]. rewrite (ren_combine f), map_map. apply Qmean_ext. intros c _. unfold recall.
    rewrite (hits_ren f Hf), (truly_ren f Hf). reflexivity.
  - eapply T; [exact A3|exact B3|]. rewrite (ren_combine f), map_map. apply Qmean_ext. intros c _. unfold f1.
    rewrite (hits_ren f Hf), (truly_ren f Hf), (predicted_ren f Hf). reflexivity.
Qed.
(* C33: scores stand for the first of the largest entries of each row; every requested metric is reported once,
   and an unknown name is the only way to fail on non-empty rows *)
Theorem C33_evaluate y_true predictions names r : evaluate y_true predictions names = Ok r ->
  exists t p, NoDup (map fst r) /\ (forall n, In n (map fst r) <-> In n names) /\
    (forall n v, In (n, v) r -> (n = "accuracy"%string /\ v = accuracy t p) \/ (n = "balanced_accuracy"%string /\ v = balanced_accuracy t p) \/ (n = "macro_f1"%string /\ v = macro_f1 t p)) /\
    (match y_true with Labels l => t = l | Scores rows => Forall2 (fun row i => exists j, i = Z.of_nat j /\ first_max row j) rows t end) /\
    (match predictions with Labels l => p = l | Scores rows => Forall2 (fun row i => exists j, i = Z.of_nat j /\ first_max row j) rows p end).
Proof.
  intros H. unfold evaluate in H. inv_bind H. inv_bind H. exists a, a0. unfold compute_metrics in H.
  destruct (compute_from_spec a a0 names [] (NoDup_nil _)) as [_ S]. destruct (S r H) as (A & B & C).
  split; [exact A|]. split; [intros n; rewrite B; cbn; tauto|]. split.
  { intros n v Hin. destruct (C n v Hin) as [(f & F1 & F2 & _)|[[] _]]. unfold metric_fn in F1.
    destruct (String.eqb_spec n "accuracy") as [->|_]; [left; split; congruence|].
    destruct (String.eqb_spec n "balanced_accuracy") as [->|_]; [right; left; split; congruence|].
    destruct (String.eqb_spec n "macro_f1") as [->|_]; [right; right; split; congruence|discriminate]. }
  assert (L : forall o l, labels_1d o = Ok l -> match o with Labels q => l = q | Scores rows => Forall2 (fun row i => exists j, i = Z.of_nat j /\ first_max row j) rows l end).
  { intros [q|rows] l Ho; cbn in Ho; [congruence|]. apply argmax_rows_spec in Ho. clear -Ho. induction Ho; constructor; [apply argmax_spec; assumption|assumption]. }
  split; apply L; assumption.
Qed.
Theorem C33_evaluate_runs_iff t p names : (exists r, evaluate (Labels t) (Labels p) names = Ok r) <->
  forall n, In n names -> In n ["accuracy"; "balanced_accuracy"; "macro_f1"]%string.
Proof.
  unfold evaluate, compute_metrics. cbn [labels_1d bind]. destruct (compute_from_spec t p names [] (NoDup_nil _)) as [S _]. rewrite S, Forall_forall.
  assert (K : forall n, metric_fn n <> None <-> In n ["accuracy"; "balanced_accuracy"; "macro_f1"]%string).
  { intros n. unfold metric_fn. destruct (String.eqb_spec n "accuracy") as [->|N1]; [cbn; split; [tauto|discriminate]|].
    destruct (String.eqb_spec n "balanced_accuracy") as [->|N2]; [cbn; split; [tauto|discriminate]|].
    destruct (String.eqb_spec n "macro_f1") as [->|N3]; [cbn; split; [tauto|discriminate]|]. cbn. intuition congruence. }
  split; intros H n Hn; apply K, H, Hn.
Qed.

Example C33_example : accuracy [0; 0; 1; 2] [0; 1; 1; 5] = Some (Qmean [1; 0; 1; 0])%Q /\
  same_score (balanced_accuracy [0; 0; 1; 2] [0; 1; 1; 5]) (Some (1 # 2)%Q) /\
  same_score (macro_f1 [0; 0; 1; 2] [0; 1; 1; 5]) (Some (4 # 9)%Q) /\
  evaluate (Labels [0; 1]) (Scores [[1; 0]; [1 # 2; 1 # 2]]%Q) ["accuracy"]%string = Ok [("accuracy"%string, accuracy [0; 1] [0; 0])].
Proof. split; [reflexivity|]. split; [vm_compute; reflexivity|]. split; vm_compute; reflexivity. Qed.
Example C33_example_classes : classes_of (combine [0; 0; 1; 2] [0; 1; 1; 5]) [2; 0; 1].
Proof.
  split; [repeat constructor; cbn; intuition lia|]. intros c. cbn. split.
  - intros [<-|[<-|[<-|[]]]]; [exists 5|exists 0|exists 1]; tauto.
  - intros [p [E|[E|[E|[E|[]]]]]]; injection E as <- _; tauto.
Qed.

Print Assumptions C33_textbook.
Print Assumptions C33_in_unit_interval.
Print Assumptions C33_one_iff_perfect.
Print Assumptions C33_order_irrelevant.
Print Assumptions C33_class_ids_irrelevant.
Print Assumptions C33_evaluate.
Print Assumptions C33_evaluate_runs_iff.
