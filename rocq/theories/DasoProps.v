From Coq Require Import QArith Qminmax Lqa Lia ZifyBool ZifyNat.
From Verif Require Import Prelude QFacts ListFacts DeepBatchModel DeepBatchSpec DeepBatchProofs DeepBatchProps DeepLossModel DeepLossSpec DeepLossProofs DeepLossProps DeepThreshModel DeepThreshSpec DeepThreshProofs DeepEmaModel DeepEmaSpec DeepEmaProofs CoMatchModel CoMatchSpec CoMatchProofs DasoModel DasoSpec DasoProofs DasoFitProofs.
Local Open Scope Z_scope.
Local Open Scope Q_scope.
Local Open Scope list_scope.

(* ------------------------------------------------------------------ C138: the prototypes *)
(* C138: whatever labelled batches (labels, features) are seen, in whatever order, the queue of class c holds the last
   queue_size features of rows labelled c, oldest first, and the prototype is their average. *)
Theorem C138_queue : forall cfg k d batches c, (0 < ds_queue cfg)%Z -> (forall y f, In (y, f) batches -> length f = length y) -> (c < k)%nat ->
  let queues := fold_left (fun qs b => push_all cfg (fst b) (snd b) qs) batches (repeat [] k) in
  nth c queues [] = recent (Z.to_nat (ds_queue cfg)) (concat (map (fun b => class_rows c (fst b) (snd b)) batches)) /\
  (length (nth c queues []) <= Z.to_nat (ds_queue cfg))%nat /\
  prototype d (nth c queues []) = centre d (nth c queues []).
Proof.
  intros cfg k d batches c QS L C. cbv zeta.
  assert (G : forall bs (h : nat -> list (list Q)), (forall y f, In (y, f) bs -> length f = length y) ->
    fold_left (fun qs b => push_all cfg (fst b) (snd b) qs) bs (map (fun c => recent (Z.to_nat (ds_queue cfg)) (h c)) (seq 0 k)) =
    map (fun c => recent (Z.to_nat (ds_queue cfg)) (h c ++ concat (map (fun b => class_rows c (fst b) (snd b)) bs))) (seq 0 k)).
  { induction bs as [|[yb f] bs IH]; intros h HB; cbn [fold_left map concat].
    - apply map_ext. intros a. now rewrite app_nil_r.
    - cbn [fst snd]. rewrite push_all_spec by (try exact QS; apply HB; now left). rewrite (IH (fun a => h a ++ class_rows a yb f)) by (intros y0 f0 I; apply HB; now right).
      apply map_ext. intros a. now rewrite <- app_assoc. }
  assert (R : repeat [] k = map (fun c : nat => recent (Z.to_nat (ds_queue cfg)) (@nil (list Q))) (seq 0 k)).
  { generalize 0%nat. clear. induction k as [|m IH]; intros s; [reflexivity|]. cbn [repeat seq map]. rewrite <- IH. reflexivity. }
  rewrite R, (G batches (fun _ => []) L).
  rewrite (nth_map _ (seq 0 k) c 0%nat) by (rewrite seq_length; exact C). rewrite seq_nth by exact C. cbn [Nat.add app].
  split; [reflexivity|]. split; [rewrite recent_length; lia|apply prototype_centre].
Qed.
(* C138: the entries of a prototype are averages of the remembered ones; a class without rows has the zero row. *)
Theorem C138_prototype : forall d q, length (prototype d q) = d /\
  (forall j, (j < d)%nat -> average (map (fun r => nth j r 0) q) (nth j (prototype d q) 0)) /\ (q = [] -> prototype d q = repeat 0 d).
Proof.
  intros d q. rewrite prototype_centre. unfold centre. split; [now rewrite map_length, seq_length|]. split.
  - intros j J. rewrite (nth_map _ (seq 0 d) j 0%nat) by (rewrite seq_length; exact J). rewrite seq_nth by exact J. cbn [Nat.add]. unfold class_mean.
    destruct q as [|r q]; [split; [reflexivity|reflexivity]|]. apply average_mean. discriminate.
  - intros ->. rewrite <- (prototype_centre d []) || idtac. generalize 0%nat. induction d as [|m IH]; intros s; [reflexivity|]. cbn [repeat seq map]. rewrite IH. reflexivity.
Qed.
(* C138 (refuted): a class of which no labelled row has been seen is never the closest one.  Its zero prototype has cosine 0
   with everything, which beats every negative cosine, whatever order-preserving softmax is used. *)
Theorem C138_unseen_refuted : forall softmax cfg, (forall a b, a < b -> nth 0 (softmax [a; b]) 0 < nth 1 (softmax [a; b]) 0) -> 0 < ds_t_proto cfg -> (0 < ds_queue cfg)%Z ->
  let norm := fun r => Qabs.Qabs (nth 0 r 0) in
  let queues := fold_left (fun qs b => push_all cfg (fst b) (snd b) qs) [([0%Z], [[-(1)]])] (repeat [] 2) in
  let q := semantic softmax norm cfg (map (prototype 1) queues) [1] in
  nth 1 queues [] = [] /\ nth 0 q 0 < nth 1 q 0.
Proof.
  intros softmax cfg SM TP QS. cbv zeta.
  assert (E : fold_left (fun qs b => push_all cfg (fst b) (snd b) qs) [([0%Z], [[-(1)]])] (repeat [] 2) = [[[-(1)]]; []]).
  { cbn [fold_left fst snd]. cbn [repeat push_all length seq combine map fst snd]. unfold push_class. cbn [of_class combine filter fst Z.eqb map snd Z.of_nat app].
    destruct (Z.ltb_spec (ds_queue cfg) (lenZ [[-(1)]])) as [X|X]; [unfold lenZ in X; cbn in X; lia|]. reflexivity. }
  rewrite E. split; [reflexivity|]. unfold semantic. cbn [map]. apply SM.
  set (a := dot _ _). set (b := dot _ _). assert (EA : a == -(1)) by reflexivity. assert (EB : b == 0) by reflexivity. clearbody a b. rewrite EA, EB.
  apply Qlt_shift_div_l; [exact TP|]. setoid_replace (-(1) / ds_t_proto cfg * ds_t_proto cfg) with (-(1)) by (field; lra). lra.
Qed.
(* C138: the features of the prototypes are computed with the network's own weights without use_ema, and with the averaged
   weights with it, when the function that gives the features takes a model or there is none. *)
Theorem C138_weights : forall cfg student closure plain ema t teacher,
  (ds_use_ema cfg = false -> weights_for cfg student closure plain ema t teacher = student t) /\
  (ds_use_ema cfg = true -> takes_weights plain ema -> weights_for cfg student closure plain ema t teacher = teacher).
Proof.
  intros cfg student closure plain ema t teacher. unfold weights_for, feature_source. split; intros U; rewrite U; cbn [negb]; [reflexivity|].
  intros [-> | [-> TW]]; [reflexivity|]. destruct plain; [reflexivity|contradiction|reflexivity].
Qed.
(* C138 (refuted): use_ema always takes the prototypes' features from the averaged network.  A forward_features without a
   model argument is called as it is, so that the current network's features are used, without a message. *)
Theorem C138_ema_refuted : forall cfg student closure t teacher, ds_use_ema cfg = true -> student t <> teacher ->
  ~ (forall plain ema, weights_for cfg student closure plain ema t teacher = teacher) /\ weights_for cfg student closure Plain NoExtractor t teacher = student t.
Proof.
  intros cfg student closure t teacher U N. assert (E : weights_for cfg student closure Plain NoExtractor t teacher = student t) by (unfold weights_for, feature_source; now rewrite U).
  split; [|exact E]. intros H. specialize (H Plain NoExtractor). congruence.
Qed.

(* a concrete history: 2 classes, a queue of 2 *)
Definition ex_daso (hard aware : bool) : daso_config :=
  {| ds_lambda_u := 1; ds_lambda_align := 1 # 2; ds_cutoff := 6 # 10; ds_t_proto := 1 # 2; ds_t_dist := 1; ds_queue := 2; ds_pretrain := 1; ds_period := 1;
     ds_decay := 1 # 2; ds_use_ema := true; ds_dist_aware := aware; ds_alpha := 1 # 4; ds_hard := hard |}.
Example C138_ex :
  let queues := fold_left (fun qs b => push_all (ex_daso true true) (fst b) (snd b) qs) [([0; 1; 0]%Z, [[1]; [2]; [3]]); ([0]%Z, [[5]])] (repeat [] 2) in
  queues = [[[3]; [5]]; [[2]]] /\ map (map Qred) (map (prototype 1) queues) = [[4]; [2]] /\ takes_weights NoExtractor NoExtractor /\ ~ takes_weights Plain NoExtractor.
Proof. cbv zeta. split; [reflexivity|]. split; [reflexivity|]. split; [right; split; [reflexivity|discriminate]|]. intros [X|[_ X]]; [discriminate X|now apply X]. Qed.

(* ------------------------------------------------------------------ C139: targets, frequencies and the loss *)
(* C139: a fit that ends made the batches of the shared loaders; the loss of every step is the one of the specification, with
   prototypes from all labelled rows up to the step and class frequencies from the targets of the last complete period; the
   averaged weights follow the network's.  A fit that fails says InductiveValidationError, for one of the reasons listed. *)
Theorem C139_objective : forall St (G : Gen St) softmax log_softmax ce argmax pow log norm cfg net feats student closure plain ema y ema0 same n_l n_u n_s b max_epochs sl su k d,
  gen_ok G -> softmax_ok softmax -> argmax_ok argmax -> (forall z, length (log_softmax z) = length z) -> (0 < k)%nat ->
  length y = n_l -> (forall c, In c y -> (0 <= c < Z.of_nat k)%Z) -> (forall t il iu, daso_ok (length il) (length iu) k d (net t il iu)) ->
  (forall t w il, table (length il) d (feats t w il)) -> (forall t, same_params (student t) (student 0%Z)) ->
  match daso_fit softmax log_softmax ce argmax pow log norm cfg G net feats student closure plain ema y ema0 same n_l n_u n_s b max_epochs sl su with
  | Ok losses => daso_numbers_ok cfg /\ n_s = n_u /\ exists epochs W T P,
      fit_batches G n_l n_u b max_epochs sl su = Ok epochs /\
      (forall u, same_params (student 0%Z) (T u) /\ forall p j, param p j (T u) == running (fun x => x) (ds_decay cfg) (param p j (student 0%Z)) (map (fun i => param p j (student (Z.of_nat i))) (seq 1 u))) /\
      (ds_use_ema cfg = false -> forall u, W u = student (Z.of_nat u)) /\
      (ds_use_ema cfg = true -> takes_weights plain ema -> forall u, W u = T u) /\
      daso_run softmax log_softmax ce argmax pow log norm cfg k d net feats W y (concat epochs) P losses
  | Err e => e = InductiveValidationError /\
      (n_l = 0%nat \/ n_u = 0%nat \/ n_s <> n_u \/ (b <= 0)%Z \/ (max_epochs <= 0)%Z \/ ~ daso_numbers_ok cfg \/
       (ds_use_ema cfg = true /\ (same = true \/ ~ Forall2 (fun a b => tshape a = tshape b /\ tdevice a = tdevice b) (student 0%Z) ema0)))
  end.
Proof. intros. now apply fit_spec. Qed.
(* C139: the targets of such a fit are distributions over the classes. *)
Theorem C139_targets : forall softmax log_softmax ce argmax pow log norm cfg k d net feats W y steps P losses,
  softmax_ok softmax -> argmax_ok argmax -> pow_ok pow -> daso_numbers_ok cfg -> (0 < k)%nat -> (forall t il iu, daso_ok (length il) (length iu) k d (net t il iu)) ->
  daso_run softmax log_softmax ce argmax pow log norm cfg k d net feats W y steps P losses ->
  forall t p, (t < length steps)%nat -> In p (P t) -> length p = k /\ distribution p.
Proof.
  intros softmax log_softmax ce argmax pow log norm cfg k d net feats W y steps P losses SM AM PO NK K NO [_ H] t p T I.
  destruct (H t T) as (LP & HT & _). destruct (In_nth _ _ [] I) as (r & R & <-). specialize (HT r R).
  set (z := nth r (do_w (outs net steps t)) []) in *. set (f := nth r (do_fw (outs net steps t)) []) in *. set (s := nth r (P t) []) in *.
  assert (LZ : length z = k).
  { unfold z, outs. destruct (nth t steps ([], [])) as [il iu] eqn:E. destruct (NO (Z.of_nat t) il iu) as (_ & T2 & _). apply (table_nth _ _ _ r T2). cbn [snd] in LP. lia. }
  assert (DZ : length (softmax z) = k /\ distribution (softmax z)).
  { destruct (SM z) as (L1 & N1 & S1). split; [lia|]. split; [exact N1|]. apply S1. intros ->. cbn in LZ. lia. }
  assert (DS : length (semantics softmax norm cfg k d feats W y steps t f) = k /\ distribution (semantics softmax norm cfg k d feats W y steps t f)).
  { unfold semantics. match goal with |- context [softmax ?l] => destruct (SM l) as (L1 & N1 & S1); assert (LL : length l = k) by (unfold prototypes; now rewrite !map_length, seq_length) end.
    split; [lia|]. split; [exact N1|]. apply S1. intros E. rewrite E in LL. cbn in LL. lia. }
  unfold daso_target in HT. destruct (_ <? _)%Z; [rewrite HT; exact DZ|]. destruct (ds_dist_aware cfg).
  - destruct HT as (v & TR & BL). split; [apply BL|]. refine (blended_distribution k v _ _ _ _ (proj1 DZ) (proj1 DS) (proj2 DZ) (proj2 DS) BL).
    apply (trust_range _ _ _ _ _ PO) in TR; [exact TR|]. destruct (AM (softmax z)) as [X _]; [intros E; rewrite E in DZ; cbn in DZ; lia|]. unfold lenZ in X. lia.
  - split; [apply HT|]. refine (blended_distribution k (ds_alpha cfg) _ _ _ _ (proj1 DZ) (proj1 DS) (proj2 DZ) (proj2 DS) HT). apply NK.
Qed.
(* C139: the share of the semantic pseudo-label is between 0 and 1, grows with the frequency of the predicted class, and is 1
   for the most frequent class unless the power of its frequency is below 1e-12. *)
Theorem C139_trust : forall pow k freq c v, pow_ok pow -> (c < k)%nat -> trust pow k freq c v ->
  0 <= v <= 1 /\
  (forall c' v', (c' < k)%nat -> trust pow k freq c' v' -> freq c <= freq c' -> v <= v') /\
  ((forall j, (j < k)%nat -> freq j <= freq c) -> (1 # 1000000000000) <= pow (Qmax (freq c) (1 # 1000000000000)) -> v == 1).
Proof.
  intros pow k freq c v PO C TR. split; [now apply (trust_range pow k freq c)|]. split.
  - intros c' v' C' TR' L. now apply (trust_mono pow k freq c c').
  - intros M T. now apply (trust_top pow k freq c).
Qed.
(* x ^ 64, which is x ^ (1 / t_dist) for t_dist = 1 / 64 *)
Definition pow64 (x : Q) : Q := let s := fun x => x * x in s (s (s (s (s (s x))))).
Lemma pow64_ok : pow_ok pow64.
Proof.
  assert (S : forall x y, 0 <= x -> 0 <= y -> 0 <= x * x /\ 0 <= y * y /\ (x < y -> x * x < y * y) /\ (x == y -> x * x == y * y)) by (intros x y X Y; repeat split; intros; try nra).
  split; [|reflexivity]. intros x y X Y. unfold pow64. cbv zeta.
  assert (G : forall a b, 0 <= a -> 0 <= b -> (x < y -> a < b) /\ (x == y -> a == b) -> 0 <= a * a /\ 0 <= b * b /\ ((x < y -> a * a < b * b) /\ (x == y -> a * a == b * b))).
  { intros a b A B [H1 H2]. destruct (S a b A B) as (S1 & S2 & S3 & S4). repeat split; auto. }
  destruct (G x y X Y ltac:(split; auto)) as (A1 & B1 & H1). destruct (G _ _ A1 B1 H1) as (A2 & B2 & H2). destruct (G _ _ A2 B2 H2) as (A3 & B3 & H3).
  destruct (G _ _ A3 B3 H3) as (A4 & B4 & H4). destruct (G _ _ A4 B4 H4) as (A5 & B5 & H5). destruct (G _ _ A5 B5 H5) as (A6 & B6 & H6). exact H6.
Qed.
(* C139 (refuted): the most frequent class always gets the whole semantic pseudo-label.  With a small t_dist the powers of all
   frequencies are below the 1e-12 at which their maximum is cut off: with t_dist = 1/64 and two equally frequent classes no
   class gets a share of 1e-7. *)
Theorem C139_sharp_refuted : pow_ok pow64 /\ forall c v, (c < 2)%nat -> trust pow64 2 (fun _ => 1 # 2) c v -> 0 < v < 1 # 10000000.
Proof.
  split; [exact pow64_ok|]. intros c v C (g & [(a & A & EA) _] & E). cbv beta in *.
  assert (V : v == pow64 (1 # 2) / Qmax (pow64 (1 # 2)) (1 # 1000000000000)).
  { rewrite E, EA. change (Qmax (1 # 2) (1 # 1000000000000)) with (1 # 2). reflexivity. }
  rewrite V. split; vm_compute; reflexivity.
Qed.

(* a concrete fit: 2 classes, 1 feature, one pretraining step *)
Definition ex_dnet (t : Z) (il iu : list nat) : daso_out :=
  let tab idx := map (fun i => [1; inject_Z (1 + t + Z.of_nat i)]) idx in let feat idx := map (fun _ : nat => [1]) idx in
  {| do_l := tab il; do_w := tab iu; do_fw := feat iu; do_s := tab iu; do_fs := feat iu; do_fl := [] |}.
Definition ex_feats (t : Z) (w : list tensor) (il : list nat) : list (list Q) := map (fun _ => [param 0 0 w]) il.
Definition ex_student (t : Z) : list tensor := [{| tshape := [1%Z]; tdevice := 0; tdata := [1 + inject_Z t] |}].
Definition ex_dfit (hard aware same : bool) (n_s : nat) := daso_fit ex_softmax ex_log_softmax ex_ce ex_argmax (fun x => x) (fun x => x - 1) (fun r => Qabs.Qabs (nth 0 r 0)) (ex_daso hard aware) ex_gen ex_dnet ex_feats ex_student ex_student
  NoExtractor NoExtractor [1%Z] (ex_student 0) same 1 2 n_s 1 1 0%nat 0%nat.
Example C139_ex :
  daso_numbers_ok (ex_daso true true) /\ (forall t il iu, daso_ok (length il) (length iu) 2 1 (ex_dnet t il iu)) /\ (forall t w il, table (length il) 1 (ex_feats t w il)) /\
  (forall t, same_params (ex_student t) (ex_student 0%Z)) /\ pow_ok (fun x => x) /\
  (exists losses, ex_dfit true true false 2 = Ok losses /\ length losses = 2%nat) /\ ex_dfit true true true 2 = Err InductiveValidationError /\ ex_dfit true true false 1 = Err InductiveValidationError /\
  trust (fun x => x) 2 (fun c => match c with O => 3 # 4 | _ => 1 # 4 end) 1 (1 # 3).
Proof.
  split; [repeat split; cbn; lra || lia|]. split; [repeat split; cbn; rewrite ?map_length; try reflexivity; intros r I; apply in_map_iff in I; now destruct I as (i & <- & _)|].
  split; [intros t w il; split; [apply map_length|intros r I; apply in_map_iff in I; now destruct I as (i & <- & _)]|].
  split; [intros t; repeat constructor|]. split; [split; [intros; split; auto|reflexivity]|].
  split; [eexists; split; [vm_compute; reflexivity|reflexivity]|]. split; [vm_compute; reflexivity|]. split; [vm_compute; reflexivity|].
  exists (3 # 4). split; [split|reflexivity].
  - exists 0%nat. split; [lia|]. reflexivity.
  - intros [|[|c]] C; [vm_compute; discriminate|vm_compute; discriminate|lia].
Qed.

Print Assumptions C138_queue.
Print Assumptions C138_prototype.
Print Assumptions C138_unseen_refuted.
Print Assumptions C138_weights.
Print Assumptions C138_ema_refuted.
Print Assumptions C139_objective.
Print Assumptions C139_targets.
Print Assumptions C139_trust.
Print Assumptions C139_sharp_refuted.
