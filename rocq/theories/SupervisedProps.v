(* C43, C64, C65: the k-nearest-neighbour classifier, label encoding, creating a classifier. *)
From Coq Require Import List ZArith Lia Bool QArith Qminmax Sorted Lqa String ZifyBool ZifyNat.
From Verif Require Import Prelude ListFacts QFacts KnnModel InductModel InductSpec InductProofs InductFitProofs EnsembleModel EnsembleSpec ProbaProofs
  SampleServiceProofs SupervisedModel SupervisedSpec SupervisedProofs.
Import ListNotations.
Open Scope Z_scope.

(* ----- C43 ----- *)

Theorem C43_knn_proba {X} (score : X -> X -> Q) top (d : X) w m eps k Xt y st bs Qs :
  picks_largest top -> (0 < eps)%Q -> 0 < bs -> knn_fit k Xt y = Ok st ->
  exists P cs, knn_proba score top st w m eps bs d Qs = Ok P /\ List.length P = List.length Qs /\ labels_of y cs /\
    forall i, (i < List.length Qs)%nat -> exists N s, best_scored score Xt d (nth i Qs d) (Z.to_nat k) N /\
      List.length s = List.length cs /\
      (forall g, (g < List.length cs)%nat -> (nth g s 0 == weight_of_label y (fun i' => knn_weight w m eps (score (nth i Qs d) (nth i' Xt d))) N (nth g cs 0%Z))%Q) /\
      distribution_of s (nth i P []).
Proof. intros A B C D. now apply knn_proba_spec. Qed.

Theorem C43_knn_predict {X} (score : X -> X -> Q) top (d : X) w m eps k Xt y st bs Qs :
  picks_largest top -> (0 < eps)%Q -> 0 < bs -> knn_fit k Xt y = Ok st ->
  exists Y cs, knn_predict score top st w m eps bs d Qs = Ok Y /\ List.length Y = List.length Qs /\ labels_of y cs /\
    forall i, (i < List.length Qs)%nat -> exists N s g, best_scored score Xt d (nth i Qs d) (Z.to_nat k) N /\
      List.length s = List.length cs /\
      (forall g, (g < List.length cs)%nat -> (nth g s 0 == weight_of_label y (fun i' => knn_weight w m eps (score (nth i Qs d) (nth i' Xt d))) N (nth g cs 0%Z))%Q) /\
      predicts s g /\ nth i Y 0 = nth g cs 0 /\ In (nth i Y 0) y.
Proof. intros A B C D. now apply knn_predict_spec. Qed.

Theorem C43_weight_positive w m eps s : (0 < eps)%Q ->
  (0 < knn_weight w m eps s)%Q /\ (w = KUniform -> knn_weight w m eps s == 1)%Q /\
  (w = KDistance -> forall dist, (0 <= dist)%Q -> (m = KEuclidean -> s == - dist)%Q -> (m = KCosine -> s == 1 - dist)%Q -> knn_weight w m eps s == 1 / (dist + eps))%Q.
Proof.
  intros E. split; [now apply knn_weight_pos|]. split; [intros ->; reflexivity|]. intros -> dist Hd He Hc. cbn.
  destruct m; [rewrite (He eq_refl), Qopp_involutive, (Q.max_l dist 0) by exact Hd; reflexivity|].
  rewrite (Hc eq_refl). assert (X : (1 - (1 - dist) == dist)%Q) by ring. rewrite X, (Q.max_l dist 0) by exact Hd. reflexivity.
Qed.

(* neither the batch size nor the other queries matter *)
Theorem C43_batches_irrelevant {X} (score : X -> X -> Q) top (d : X) w m eps st bs bs' Qs P :
  0 < bs -> 0 < bs' -> knn_proba score top st w m eps bs d Qs = Ok P ->
  knn_proba score top st w m eps bs' d Qs = Ok P /\
  forall i, (i < List.length Qs)%nat -> knn_proba score top st w m eps bs' d [nth i Qs d] = Ok [nth i P []].
Proof.
  intros B B'. rewrite (knn_proba_rows score top d w m eps st bs Qs B). intros [= <-]. split; [now apply knn_proba_rows|]. intros i Hi.
  rewrite (knn_proba_rows score top d w m eps st bs' _ B'). cbn [map]. f_equal. f_equal.
  set (f := fun q => normalise_row _). rewrite (nth_indep _ [] (f d)) by (rewrite map_length; exact Hi). now rewrite (map_nth f).
Qed.

Theorem C43_fit_refuses {X} k (Xt : list X) y :
  (exists st, knn_fit k Xt y = Ok st) <-> Xt <> [] /\ List.length Xt = List.length y /\ 0 < k.
Proof.
  split.
  - intros (st & H). destruct (knn_fit_ok k Xt y st H) as (_ & A & _ & B & C & _). auto.
  - intros (A & B & C). unfold knn_fit. destruct Xt as [|x xs]; [congruence|]. destruct (encode_labels y) as [e cs] eqn:E.
    destruct (encode_labels_spec y e cs E) as (_ & L & _). rewrite L, B, Nat.eqb_refl. cbn [negb]. destruct (Z.leb_spec k 0); [lia|]. eauto.
Qed.

(* points on a line, labels 7 and 4: the two nearest to 2 are 1 and 3, labels 4 and 7 *)
Definition ex_score (a b : Q) : Q := (- ((a - b) * (a - b)))%Q.
Definition ex_Xt : list Q := [0; 1; 3; 9]%Q.
Definition ex_yt : list Z := [7; 4; 7; 4].
Example C43_example : exists st P, knn_fit 2 ex_Xt ex_yt = Ok st /\
  knn_proba ex_score ref_topk st KDistance KEuclidean (1#10) 3 0%Q [2; 8; 2; 1]%Q = Ok P /\
  Forall2 (Forall2 Qeq) P [[1#2; 1#2]; [251#262; 11#262]; [1#2; 1#2]; [11#12; 1#12]]%Q /\
  knn_predict ex_score ref_topk st KDistance KEuclidean (1#10) 3 0%Q [2; 8; 2; 1]%Q = Ok [4; 4; 4; 4] /\ picks_largest ref_topk.
Proof.
  eexists. eexists. split; [vm_compute; reflexivity|]. split; [vm_compute; reflexivity|]. split; [repeat constructor|].
  split; [vm_compute; reflexivity|exact ref_topk_picks].
Qed.

(* a negative batch size is not refused: every row is zero and the smallest label is predicted *)
Theorem C43_negative_batch_refuted : exists k (Xt : list Q) y st q P,
  knn_fit k Xt y = Ok st /\ (nth 0 Xt 0 == q)%Q /\ (forall j, (0 < j < List.length Xt)%nat -> ex_score q (nth j Xt 0) < ex_score q (nth 0 Xt 0))%Q /\ k = 1 /\ nth 0 y 0 = 7 /\
  knn_proba ex_score ref_topk st KUniform KEuclidean (1#10) (-1) 0%Q [q] = Ok P /\ (total (nth 0 P []) == 0)%Q /\
  knn_predict ex_score ref_topk st KUniform KEuclidean (1#10) (-1) 0%Q [q] = Ok [4].
Proof.
  exists 1, ex_Xt, ex_yt. eexists. exists 0%Q. eexists. split; [vm_compute; reflexivity|]. split; [reflexivity|]. split.
  - intros [|[|[|[|j]]]] Hj; cbn in Hj; try lia; cbn; reflexivity.
  - split; [reflexivity|]. split; [reflexivity|]. split; [vm_compute; reflexivity|]. split; [reflexivity|vm_compute; reflexivity].
Qed.

(* ----- C64: label encoding and default scores ----- *)

Theorem C64_encoding_round_trip y e cs : encode_labels y = (e, cs) ->
  labels_of y cs /\ List.length e = List.length y /\
  forall i, (i < List.length y)%nat -> (nth i e 0%nat < List.length cs)%nat /\ nth (nth i e 0%nat) cs 0 = nth i y 0.
Proof. apply encode_labels_spec. Qed.

Theorem C64_encoding_keeps_order y e cs i j : encode_labels y = (e, cs) -> (i < List.length y)%nat -> (j < List.length y)%nat ->
  ((nth i e 0%nat < nth j e 0%nat)%nat <-> nth i y 0 < nth j y 0).
Proof.
  intros H Hi Hj. destruct (encode_labels_spec y e cs H) as ((So & _) & _ & G). destruct (G i Hi) as [A1 A2], (G j Hj) as [B1 B2]. rewrite <- A2, <- B2.
  generalize (nth i e 0%nat) (nth j e 0%nat) A1 B1. clear - So. induction So as [|c l S IH F]; intros a b Ha Hb; [cbn in Ha; lia|]. rewrite Forall_forall in F.
  destruct a as [|a], b as [|b]; cbn in *; try lia.
  - specialize (F (nth b l 0) (nth_In l 0 (proj2 (Nat.succ_lt_mono _ _) Hb))). lia.
  - specialize (F (nth a l 0) (nth_In l 0 (proj2 (Nat.succ_lt_mono _ _) Ha))). lia.
  - rewrite <- IH by lia. lia.
Qed.

Theorem C64_scores_decode_to_predictions classes pred : StronglySorted Z.lt classes -> (forall l, In l pred -> In l classes) ->
  exists S, scores_from_predictions classes pred = Ok S /\ List.length S = List.length pred /\
    forall i, (i < List.length pred)%nat -> exists c, predicts (nth i S []) c /\ nth c classes 0 = nth i pred 0 /\ List.length (nth i S []) = List.length classes /\
      (total (nth i S []) == 1)%Q.
Proof. apply scores_from_predictions_spec. Qed.

(* two columns from one decision value: column 1 wins exactly when it is positive *)
Theorem C64_binary_decision s i c : (i < List.length s)%nat -> predicts (nth i (stack_binary s) []) c ->
  c = if Qlt_le_dec 0 (nth i s 0%Q) then 1%nat else 0%nat.
Proof.
  intros Hi. unfold stack_binary. set (f := fun x : Q => [- x; x]%Q). rewrite (nth_indep _ [] (f 0%Q)) by (rewrite map_length; exact Hi).
  rewrite (map_nth f). unfold f. generalize (nth i s 0%Q) as x. intros x (L & M & E). cbn in L. destruct c as [|[|c]]; [| |lia].
  - specialize (M 1%nat). cbn in M. destruct (Qlt_le_dec 0 x); [|reflexivity]. specialize (M ltac:(lia)). lra.
  - specialize (E 0%nat ltac:(lia)). cbn in E. destruct (Qlt_le_dec 0 x); [reflexivity|lra].
Qed.

Example C64_example : encode_labels [30; 10; 30; 20] = ([2; 0; 2; 1]%nat, [10; 20; 30]) /\
  scores_from_predictions [10; 20; 30] [30; 10] = Ok [[0; 0; 1]; [1; 0; 0]]%Q.
Proof. split; vm_compute; reflexivity. Qed.

(* ----- C65: creating a classifier ----- *)

(* a backend can be used: registered, and its optional dependency, if any, importable *)
Definition available (importable : string -> bool) (s : clf_spec) (b : string) : Prop :=
  exists bs, lookup b (cs_backends s) = Some bs /\ forall e, b_extra bs = Some e -> importable e = true.

Lemma usable_available importable s b : usable importable s b = true <-> available importable s b.
Proof.
  unfold usable, available. split.
  - destruct (lookup b (cs_backends s)) as [bs|] eqn:E; [|discriminate]. intros H. exists bs. split; [reflexivity|]. intros e He. rewrite He in H. exact H.
  - intros (bs & -> & H). destruct (b_extra bs); auto.
Qed.

Theorem C65_auto_takes_first_available registry importable id params seed n_jobs s :
  lookup id registry = Some s -> ~ In ""%string (cs_preferred s) ->
  forall f ps, create_classifier registry importable id "auto" params seed n_jobs = Ok (f, ps) ->
  exists b bs, first_such (available importable s) (cs_preferred s) b /\ lookup b (cs_backends s) = Some bs /\ f = b_factory bs /\
    completes (fun k => lookup k params) (fun k => lookup k ps) seed n_jobs.
Proof.
  intros L Ne f ps H. unfold create_classifier in H. rewrite L in H. unfold choose_backend in H. cbn [String.eqb] in H.
  destruct (find (usable importable s) (cs_preferred s)) as [b|] eqn:Fi; [|discriminate]. cbn in H.
  pose proof (proj1 (find_first _ _ _) Fi) as (l1 & l2 & E1 & E2 & E3).
  destruct (String.eqb_spec b ""); [exfalso; apply Ne; rewrite E1, in_app_iff; right; left; exact e|]. cbn [bind] in H.
  destruct (lookup b (cs_backends s)) as [bs|] eqn:Lb; [|discriminate]. injection H as <- <-. exists b, bs.
  split; [|split; [exact Lb|split; [reflexivity|apply create_params]]].
  exists l1, l2. split; [exact E1|]. split; [now apply usable_available|]. intros a Ha C. apply (E3 a Ha). now apply usable_available.
Qed.

(* it fails only when nothing preferred can be used, and then reports the first choice's missing dependency *)
Theorem C65_auto_fails_only_if_none registry importable id params seed n_jobs s :
  lookup id registry = Some s -> ~ In ""%string (cs_preferred s) ->
  ((exists e, create_classifier registry importable id "auto" params seed n_jobs = Err e) <->
   forall b, In b (cs_preferred s) -> ~ available importable s b).
Proof.
  intros L Ne. unfold create_classifier. rewrite L. unfold choose_backend.
  change (String.eqb "auto" "auto") with true. cbn iota.
  destruct (find (usable importable s) (cs_preferred s)) as [b|] eqn:Fi.
  - pose proof (find_some _ _ Fi) as [I U]. destruct (String.eqb_spec b ""); [subst; contradiction|]. cbn [bind].
    split.
    + apply usable_available in U. destruct U as (bs & Lb & _). rewrite Lb. intros (e & H). discriminate.
    + intros H. exfalso. apply (H b I). now apply usable_available.
  - cbn [bind]. split; [|intros _; eauto]. intros _ b I A. apply usable_available in A. pose proof (find_none _ _ Fi b I). congruence.
Qed.

Theorem C65_missing_dependency_reported registry importable id params seed n_jobs s first rest bs e :
  lookup id registry = Some s -> cs_preferred s = first :: rest -> lookup first (cs_backends s) = Some bs -> b_extra bs = Some e -> e <> ""%string ->
  (forall b, In b (cs_preferred s) -> ~ available importable s b) ->
  create_classifier registry importable id "auto" params seed n_jobs = Err OptionalDependencyError.
Proof.
  intros L Ep Lb Ex Nn H. unfold create_classifier. rewrite L. unfold choose_backend.
  change (String.eqb "auto" "auto") with true. cbn iota.
  destruct (find (usable importable s) (cs_preferred s)) as [b|] eqn:Fi.
  - pose proof (find_some _ _ Fi) as [I U]. exfalso. apply (H b I). now apply usable_available.
  - cbn [bind]. unfold no_backend. rewrite Ep, Lb, Ex. destruct (String.eqb_spec e ""); [contradiction|reflexivity].
Qed.

Theorem C65_named_backend registry importable id b params seed n_jobs f ps : b <> "auto"%string ->
  (create_classifier registry importable id b params seed n_jobs = Ok (f, ps) ->
   exists s bs, lookup id registry = Some s /\ lookup b (cs_backends s) = Some bs /\ f = b_factory bs /\
     completes (fun k => lookup k params) (fun k => lookup k ps) seed n_jobs) /\
  ((exists e, create_classifier registry importable id b params seed n_jobs = Err e) <->
   forall s, lookup id registry = Some s -> lookup b (cs_backends s) = None).
Proof.
  intros Nb. unfold create_classifier, choose_backend. destruct (String.eqb_spec b "auto"); [contradiction|]. cbn [bind].
  destruct (lookup id registry) as [s|]; [|split; [discriminate|split; [discriminate|eauto]]].
  destruct (lookup b (cs_backends s)) as [bs|] eqn:Lb.
  - split.
    + intros H. injection H as <- <-. exists s, bs. split; [reflexivity|]. split; [exact Lb|]. split; [reflexivity|apply create_params].
    + split; [intros (e & H); discriminate|]. intros H. specialize (H s eq_refl). congruence.
  - split; [discriminate|]. split; [intros _ s' [= <-]; exact Lb|eauto].
Qed.

Example C65_example :
  let s := {| cs_backends := [("sklearn", {| b_factory := "sk"; b_extra := Some "sklearn" |}); ("numpy", {| b_factory := "np"; b_extra := None |})]%string;
              cs_preferred := ["sklearn"; "numpy"]%string |} in
  create_classifier [("knn"%string, s)] (fun _ => false) "knn" "auto" [("seed"%string, 3)] (Some 9) (Some 2) = Ok ("np"%string, [("seed"%string, 3); ("n_jobs"%string, 2)]) /\
  create_classifier [("knn"%string, s)] (fun _ => true) "knn" "auto" [] (Some 9) None = Ok ("sk"%string, [("seed"%string, 9)]).
Proof. split; vm_compute; reflexivity. Qed.

Print Assumptions C43_knn_proba.
Print Assumptions C43_knn_predict.
Print Assumptions C43_weight_positive.
Print Assumptions C43_batches_irrelevant.
Print Assumptions C43_fit_refuses.
Print Assumptions C43_negative_batch_refuted.
Print Assumptions C64_encoding_round_trip.
Print Assumptions C64_encoding_keeps_order.
Print Assumptions C64_scores_decode_to_predictions.
Print Assumptions C64_binary_decision.
Print Assumptions C65_auto_takes_first_available.
Print Assumptions C65_auto_fails_only_if_none.
Print Assumptions C65_missing_dependency_reported.
Print Assumptions C65_named_backend.
