(* C154: the networks of deep model bundles. *)
From Coq Require Import String QArith Lqa Lia ZifyBool ZifyNat.
From Verif Require Import Prelude BundleModel BundleSpec BundleProofs.
Local Open Scope string_scope.
Local Open Scope Z_scope.
Local Open Scope list_scope.
Local Notation length := List.length.

Section Props.
Context {W gen : Type} (seeded : Z -> gen) (draw : net -> gen -> W * gen) (pretrained : string -> sample -> nat -> params -> result net).
Local Notation build := (build W gen seeded draw pretrained).
Implicit Types (ps : params) (seed : Z) (ema : bool) (g : gen).

(* A request for another backend, a sample that is neither a tensor nor a dict with x, a missing or non-positive number of classes,
   and an unknown classifier are refused. *)
Theorem C154_refused : forall id backend ps x classes seed ema g,
  ~ torch_backend backend \/ x = Strange \/ (forall c, classes = Some c -> c <= 0) \/
  ~ In id ["mlp"; "logreg"; "image_cnn"; "audio_cnn"; "text_cnn"; "image_pretrained"; "audio_pretrained"; "lstm_scratch"; "graphsage_inductive"] ->
  build id backend ps x classes seed ema g = Err InductiveValidationError.
Proof.
  intros id backend ps x classes seed ema g [H|[H|[H|H]]]; [apply build_refuses; auto|apply build_refuses; right; left; subst; reflexivity|apply build_refuses; right; right; exact H|].
  assert (E : forall x k, dispatch pretrained id x k ps = Err InductiveValidationError).
  { intros x1 k; unfold dispatch.
    repeat match goal with |- context [String.eqb id ?s] => destruct (String.eqb_spec id s); [exfalso; apply H; subst; cbn; tauto|] end; reflexivity. }
  unfold BundleModel.build; cbv zeta.
  match goal with |- (if ?b then _ else _) = _ => destruct b; [reflexivity|] end.
  destruct (take_sample x); [|..|reflexivity]; (destruct classes as [c|]; [|reflexivity]; destruct (c <=? 0); [reflexivity|]; rewrite E; reflexivity).
Qed.

(* The weights depend on the request and the seed alone, whatever was drawn before; the moving average starts as a copy. *)
Theorem C154_seeded : forall id backend ps x classes seed ema g1 g2,
  build id backend ps x classes seed ema g1 = build id backend ps x classes seed ema g2 /\
  (forall b g', build id backend ps x classes seed ema g1 = Ok (b, g') ->
    b_weights W b = fst (draw (b_net W b) (seeded seed)) /\ g' = snd (draw (b_net W b) (seeded seed)) /\ b_ema W b = (if ema then Some (b_weights W b) else None)).
Proof.
  intros; split; [reflexivity|]; intros b g' H; apply build_iff in H; destruct H as (_ & _ & c & n & _ & _ & _ & -> & ->); auto.
Qed.

(* ----- mlp and logreg ----- *)
Lemma dense_dispatch force x k ps : dispatch pretrained (dense_id force) x k ps = build_mlp force (p_features ps) x k ps.
Proof. destruct force; reflexivity. Qed.

(* For data with n >= 1 rows: built exactly when the hidden sizes are positive numbers and, if there are any, the activation is known
   and the dropout at most 1, and the rates of the optimizer are not negative. *)
Theorem C154_mlp : forall force backend ps n r fl ids c seed ema g,
  torch_backend backend -> 0 < c -> (1 <= n)%nat -> r <> [] ->
  ((exists b g', build (dense_id force) backend ps (Tensor (n :: r) fl ids) (Some c) seed ema g = Ok (b, g')) <->
   exists hs, sizes force ps hs /\ Forall (fun h => 0 < h) hs /\
     (hs = [] \/ named_activation ps /\ holds (fun q => q <= 1)%Q (p_dropout ps)) /\ rates_fine ps).
Proof.
  intros force backend ps n r fl ids c seed ema g Hb Hc Hn Hr.
  pose proof (mlp_iff force (p_features ps) 1 r fl (if Nat.ltb 1 n then firstn (row_size r) ids else ids) (Z.to_nat c) ps (le_n 1) Hr) as M.
  rewrite <- (take_rows n r fl ids Hn), <- dense_dispatch in M; unfold sizes_asked, dense_fine in M.
  assert (K : (exists b g', build (dense_id force) backend ps (Tensor (n :: r) fl ids) (Some c) seed ema g = Ok (b, g')) <->
    exists net, dispatch pretrained (dense_id force) (take_sample (Tensor (n :: r) fl ids)) (Z.to_nat c) ps = Ok net).
  { split.
    - intros (b & g' & H); apply build_iff in H; destruct H as (_ & _ & c' & net & [= <-] & _ & H & _); eauto.
    - intros (net & H); do 2 eexists; apply build_iff; split; [exact Hb|split; [rewrite (take_rows n r fl ids Hn); discriminate|]].
      exists c, net; repeat split; [exact Hc|exact H]. }
  rewrite K; exact M.
Qed.

(* Its linear layers lead from the values of a row through the hidden sizes to the classes; it takes exactly the tensors whose last
   size is the number of values of a row, and gives a logit per class there, and the features before the last layer if asked. *)
Theorem C154_mlp_forward : forall force backend ps n r fl ids c seed ema g b g',
  (1 <= n)%nat -> r <> [] ->
  build (dense_id force) backend ps (Tensor (n :: r) fl ids) (Some c) seed ema g = Ok (b, g') ->
  exists hs, sizes force ps hs /\
    dense (layers_of (b_net W b)) = links (row_size r :: map Z.to_nat hs ++ [Z.to_nat c]) /\
    (forall s fl' ids' o, forward (b_net W b) (Tensor s fl' ids') = Ok o <->
      exists pre, s = pre ++ [row_size r] /\ logits o = pre ++ [Z.to_nat c] /\
        feat o = if p_features ps then Some (pre ++ [last (map Z.to_nat hs) (row_size r)]) else None).
Proof.
  intros force backend ps n r fl ids c seed ema g b g' Hn Hr H; apply build_iff in H; destruct H as (_ & _ & c' & net & [= <-] & _ & H & -> & _).
  rewrite dense_dispatch, (take_rows n r fl ids Hn) in H.
  destruct (mlp_net force (p_features ps) _ r _ _ _ ps net (le_n 1) Hr H) as (hs & Hs & _ & D & F); exists hs; auto.
Qed.

(* So rows of several dimensions are accepted by the factory and refused by the network: it does not flatten them. *)
Theorem C154_mlp_rank_refuted : forall force backend ps n a e fl ids c seed ema g b g',
  (1 <= n)%nat -> (2 <= a)%nat -> (1 <= e)%nat ->
  build (dense_id force) backend ps (Tensor [n; a; e] fl ids) (Some c) seed ema g = Ok (b, g') ->
  forall fl' ids' o, forward (b_net W b) (Tensor [n; a; e] fl' ids') <> Ok o.
Proof.
  intros force backend ps n a e fl ids c seed ema g b g' Hn Ha He H fl' ids' o Ho.
  destruct (C154_mlp_forward force backend ps n [a; e] fl ids c seed ema g b g' Hn ltac:(discriminate) H) as (hs & _ & _ & F).
  apply F in Ho; destruct Ho as (pre & E & _).
  change [n; a; e] with ([n; a] ++ [e]) in E; apply app_inj_tail in E; destruct E as [_ E]; unfold row_size in E; cbn [fold_right] in E; nia.
Qed.

(* ----- image_cnn and audio_cnn ----- *)
Lemma built id backend ps x c seed ema g :
  torch_backend backend -> 0 < c -> take_sample x <> Strange ->
  ((exists b g', build id backend ps x (Some c) seed ema g = Ok (b, g')) <-> exists net, dispatch pretrained id (take_sample x) (Z.to_nat c) ps = Ok net).
Proof.
  intros Hb Hc Hx; split.
  - intros (b & g' & H); apply build_iff in H; destruct H as (_ & _ & c' & net & [= <-] & _ & H & _); eauto.
  - intros (net & H); do 2 eexists; apply build_iff; split; [exact Hb|split; [exact Hx|]]; exists c, net; repeat split; [exact Hc|exact H].
Qed.
Lemma image_dispatch x k ps : dispatch pretrained "image_cnn" x k ps = build_image x k ps. Proof. reflexivity. Qed.
Lemma audio_dispatch x k ps : dispatch pretrained "audio_cnn" x k ps = build_audio x k ps. Proof. reflexivity. Qed.

(* Built from batches of images with channels, as the parameters allow. *)
Theorem C154_image : forall backend ps n ch h w fl ids c seed ema g,
  torch_backend backend -> 0 < c -> (1 <= n)%nat ->
  ((exists b g', build "image_cnn" backend ps (Tensor [n; ch; h; w] fl ids) (Some c) seed ema g = Ok (b, g')) <->
   convolutional ps (image_chans ps) (match p_fc ps with Some z => z | None => 128 end)).
Proof.
  intros backend ps n ch h w fl ids c seed ema g Hb Hc Hn.
  rewrite built; [|assumption|assumption|rewrite (take_rows n _ fl ids Hn); discriminate].
  rewrite image_dispatch, (take_rows n _ fl ids Hn); unfold build_image, image_channels; cbn [bind]; cbv zeta.
  apply (cnn_iff 2 ch (image_chans ps) _ ps (match p_fc ps with Some z => z | None => 128 end) (1 # 5)%Q (Z.to_nat c) (1 # 1000)%Q 0%Q
    (fun ls hd => Split (ls ++ [Pool 2; Flatten]) hd)); lra.
Qed.
(* Then images of that many channels and any size give a row of logits each, and the pooled features: one per channel of the last
   convolution. *)
Theorem C154_image_forward : forall backend ps n ch h w fl ids c seed ema g b g',
  (1 <= n)%nat -> holds (fun k => 1 <= k)%nat (p_kernel ps) ->
  build "image_cnn" backend ps (Tensor [n; ch; h; w] fl ids) (Some c) seed ema g = Ok (b, g') ->
  forall m h' w' fl' ids', (1 <= h')%nat -> (1 <= w')%nat ->
  forward (b_net W b) (Tensor [m; ch; h'; w'] fl' ids') = Ok {| logits := [m; Z.to_nat c]; feat := Some [m; last (image_chans ps) ch] |}.
Proof.
  intros backend ps n ch h w fl ids c seed ema g b g' Hn Hk H; apply build_iff in H; destruct H as (_ & _ & c' & net & [= <-] & _ & H & -> & _).
  intros m h' w' fl' ids' Hh Hw; cbn [b_net].
  rewrite image_dispatch, (take_rows n _ fl ids Hn) in H; unfold build_image, image_channels in H; cbn [bind] in H.
  apply bind_ok in H; destruct H as ((ls & wd) & H1 & H); apply bind_ok in H; destruct H as (hd & H2 & H); apply bind_ok in H; destruct H as (u & _ & [= <-]).
  change (or_else (p_channels ps) [32%nat; 64%nat]) with (image_chans ps) in H1.
  assert (Hk' : (1 <= or_else (p_kernel ps) 3)%nat) by (destruct (p_kernel ps) as [k|]; [apply (Hk k eq_refl)|cbn; lia]).
  destruct (convs_run 2 _ _ _ _ _ _ H1 Hk' m [h'; w'] eq_refl ltac:(repeat constructor; assumption)) as (sp & E & Hl).
  pose proof (convs_width 2 _ _ _ _ _ _ H1) as ->.
  cbn [forward]; rewrite run_app, E; cbn [bind]; rewrite (pooled 2 m _ sp Hl); cbn [bind]; rewrite (head_run _ _ _ _ _ _ H2 m); reflexivity.
Qed.
Lemma first_conv_wrong d i chs k act ls w s tail : chs <> [] -> convs d i chs k act = Ok (ls, w) ->
  (length s <> d + 2)%nat -> (length s = d + 1 -> hd 0 s <> i)%nat -> forall t, run (ls ++ tail) s <> Ok t.
Proof.
  intros Hc H Hl Hh t; destruct chs as [|o chs]; [congruence|]; cbn [convs] in H.
  apply bind_ok in H; destruct H as (a & _ & H); apply bind_ok in H; destruct H as ((ls' & w') & _ & H).
  assert (E : exists ls'', ls = Conv d i o k (k / 2) :: ls'') by (inversion H; eauto).
  destruct E as (ls'' & ->); cbn [app run]; unfold apply at 1.
  destruct (Nat.eqb_spec (length s) (d + 2)); [contradiction|].
  destruct (Nat.eqb_spec (length s) (d + 1)) as [E|]; [|discriminate].
  specialize (Hh E); destruct s as [|x s]; [discriminate|]; cbn in Hh; destruct (Nat.eqb_spec x i); [contradiction|discriminate].
Qed.
(* Images without a channel dimension, and flat images with an input shape, are accepted by the factory; the network refuses them. *)
Theorem C154_image_channels_refuted : forall backend ps n r fl ids c seed ema g b g',
  image_chans ps <> [] -> (2 <= n)%nat -> length r = 2%nat \/ length r = 1%nat ->
  build "image_cnn" backend ps (Tensor (n :: r) fl ids) (Some c) seed ema g = Ok (b, g') ->
  forall fl' ids' o, forward (b_net W b) (Tensor (n :: r) fl' ids') <> Ok o.
Proof.
  intros backend ps n r fl ids c seed ema g b g' Hch Hn Hr H; apply build_iff in H; destruct H as (_ & _ & c' & net & [= <-] & _ & H & -> & _).
  intros fl' ids' o Ho; cbn [b_net] in Ho.
  rewrite image_dispatch, (take_rows n _ fl ids ltac:(lia)) in H; unfold build_image in H.
  apply bind_ok in H; destruct H as (ch & Hc0 & H).
  apply bind_ok in H; destruct H as ((ls & wd) & H1 & H); apply bind_ok in H; destruct H as (hd & H2 & H); apply bind_ok in H; destruct H as (u & _ & [= <-]).
  change (or_else (p_channels ps) [32%nat; 64%nat]) with (image_chans ps) in H1.
  cbn [forward] in Ho; apply bind_ok in Ho; destruct Ho as (f & Hf & _).
  refine (first_conv_wrong 2 ch (image_chans ps) _ _ ls wd (n :: r) [Pool 2; Flatten] Hch H1 _ _ f Hf); [cbn [length]; lia|].
  intros Hl; cbn [length] in Hl; assert (E : length r = 2%nat) by lia.
  destruct r as [|a [|a' [|]]]; try discriminate E; cbn in Hc0; injection Hc0 as <-; cbn; lia.
Qed.

(* The same for waveforms with channels. *)
Theorem C154_audio : forall backend ps n ch l fl ids c seed ema g,
  torch_backend backend -> 0 < c -> (1 <= n)%nat ->
  ((exists b g', build "audio_cnn" backend ps (Tensor [n; ch; l] fl ids) (Some c) seed ema g = Ok (b, g')) <->
   convolutional ps (audio_chans ps) (match p_fc ps with Some z => z | None => 64 end)).
Proof.
  intros backend ps n ch l fl ids c seed ema g Hb Hc Hn.
  rewrite built; [|assumption|assumption|rewrite (take_rows n _ fl ids Hn); discriminate].
  rewrite audio_dispatch, (take_rows n _ fl ids Hn); unfold build_audio, audio_channels; cbn [bind]; cbv zeta.
  apply (cnn_iff 1 ch (audio_chans ps) _ ps (match p_fc ps with Some z => z | None => 64 end) (1 # 5)%Q (Z.to_nat c) (1 # 1000)%Q 0%Q
    (fun ls hd => Plain (ls ++ [Pool 1; Flatten] ++ hd))); lra.
Qed.
Theorem C154_audio_forward : forall backend ps n ch l fl ids c seed ema g b g',
  (1 <= n)%nat -> holds (fun k => 1 <= k)%nat (p_kernel ps) ->
  build "audio_cnn" backend ps (Tensor [n; ch; l] fl ids) (Some c) seed ema g = Ok (b, g') ->
  forall m l' fl' ids', (1 <= l')%nat ->
  forward (b_net W b) (Tensor [m; ch; l'] fl' ids') = Ok {| logits := [m; Z.to_nat c]; feat := None |}.
Proof.
  intros backend ps n ch l fl ids c seed ema g b g' Hn Hk H; apply build_iff in H; destruct H as (_ & _ & c' & net & [= <-] & _ & H & -> & _).
  intros m l' fl' ids' Hl'; cbn [b_net].
  rewrite audio_dispatch, (take_rows n _ fl ids Hn) in H; unfold build_audio, audio_channels in H; cbn [bind] in H.
  apply bind_ok in H; destruct H as ((ls & wd) & H1 & H); apply bind_ok in H; destruct H as (hd & H2 & H); apply bind_ok in H; destruct H as (u & _ & [= <-]).
  assert (Hk' : (1 <= or_else (p_kernel ps) 5)%nat) by (destruct (p_kernel ps) as [k|]; [apply (Hk k eq_refl)|cbn; lia]).
  destruct (convs_run 1 _ _ _ _ _ _ H1 Hk' m [l'] eq_refl ltac:(repeat constructor; assumption)) as (sp & E & Hl).
  change (forward (Plain (ls ++ [Pool 1; Flatten] ++ hd)) (Tensor [m; ch; l'] fl' ids') = Ok {| logits := [m; Z.to_nat c]; feat := None |}).
  cbn [forward]; rewrite run_app, E; cbn [bind]; rewrite run_app, (pooled 1 m _ sp Hl); cbn [bind]; rewrite (head_run _ _ _ _ _ _ H2 m); reflexivity.
Qed.
(* Waveforms without a channel dimension are accepted by the factory; the network takes the examples for channels and refuses them. *)
Theorem C154_audio_channels_refuted : forall backend ps n l fl ids c seed ema g b g',
  audio_chans ps <> [] -> p_input_shape ps = None -> (2 <= n)%nat ->
  build "audio_cnn" backend ps (Tensor [n; l] fl ids) (Some c) seed ema g = Ok (b, g') ->
  forall fl' ids' o, forward (b_net W b) (Tensor [n; l] fl' ids') <> Ok o.
Proof.
  intros backend ps n l fl ids c seed ema g b g' Hch Hs Hn H; apply build_iff in H; destruct H as (_ & _ & c' & net & [= <-] & _ & H & -> & _).
  intros fl' ids' o Ho; cbn [b_net] in Ho.
  rewrite audio_dispatch, (take_rows n _ fl ids ltac:(lia)) in H; unfold build_audio in H; rewrite Hs in H; cbn [audio_channels bind] in H.
  apply bind_ok in H; destruct H as ((ls & wd) & H1 & H); apply bind_ok in H; destruct H as (hd & H2 & H); apply bind_ok in H; destruct H as (u & _ & [= <-]).
  change (forward (Plain (ls ++ [Pool 1; Flatten] ++ hd)) (Tensor [n; l] fl' ids') = Ok o) in Ho.
  cbn [forward] in Ho; apply bind_ok in Ho; destruct Ho as (f & Hf & _).
  refine (first_conv_wrong 1 1 (audio_chans ps) _ _ ls wd [n; l] ([Pool 1; Flatten] ++ hd) Hch H1 _ _ f Hf); [cbn; lia|cbn; lia].
Qed.

(* ----- text_cnn ----- *)
Lemma text_dispatch x k ps : dispatch pretrained "text_cnn" x k ps = build_text x k ps. Proof. reflexivity. Qed.
Lemma text_net x k ps ch l net : build_text x k ps = Ok net -> text_shape x (or_else (p_layout ps) "channels_last") = Ok (ch, l) ->
  let ks := filter (fun n => Nat.leb n l) (text_kernels ps) in ks <> [] /\ exists f, net = Texts ch f ks k.
Proof.
  intros H Es; unfold build_text in H; rewrite Es in H; cbn [bind] in H; cbv zeta in H.
  change (or_else (p_kernels ps) [3%nat; 4%nat; 5%nat]) with (text_kernels ps) in H.
  cbv zeta; destruct (filter _ (text_kernels ps)) as [|x0 ks]; [discriminate|]; split; [discriminate|].
  apply bind_ok in H; destruct H as (a & _ & H); apply bind_ok in H; destruct H as (b & _ & H); apply bind_ok in H; destruct H as (u & _ & [= <-]); eauto.
Qed.
(* Sequences with their channels first: built exactly when a kernel fits the sequences, the activation is known, the dropout is a
   probability and the rates are not negative. *)
Theorem C154_text : forall backend ps n ch l fl ids c seed ema g,
  torch_backend backend -> 0 < c -> (1 <= n)%nat -> p_layout ps = Some "channels_first" ->
  ((exists b g', build "text_cnn" backend ps (Tensor [n; ch; l] fl ids) (Some c) seed ema g = Ok (b, g')) <->
   (exists k, In k (text_kernels ps) /\ (k <= l)%nat) /\ named_activation ps /\ holds (fun q => 0 <= q <= 1)%Q (p_dropout ps) /\ rates_fine ps).
Proof.
  intros backend ps n ch l fl ids c seed ema g Hb Hc Hn Hl.
  rewrite built; [|assumption|assumption|rewrite (take_rows n _ fl ids Hn); discriminate].
  rewrite text_dispatch, (take_rows n _ fl ids Hn); unfold build_text; rewrite Hl; cbn [or_else text_shape String.eqb Ascii.eqb Bool.eqb bind]; cbv zeta.
  change (or_else (p_kernels ps) [3%nat; 4%nat; 5%nat]) with (text_kernels ps).
  assert (Ho : holds (fun q => 0 <= q <= 1)%Q (p_dropout ps) <-> (0 <= or_else (p_dropout ps) (1 # 2) <= 1)%Q)
    by (symmetry; apply (or_else_holds (fun q => 0 <= q <= 1)%Q); lra).
  assert (Hf : (exists k, In k (text_kernels ps) /\ (k <= l)%nat) <-> filter (fun n => Nat.leb n l) (text_kernels ps) <> []).
  { split.
    - intros (k & Hk & Hkl) E; assert (Hi : In k (filter (fun n => Nat.leb n l) (text_kernels ps))) by (apply filter_In; split; [exact Hk|apply Nat.leb_le; exact Hkl]); rewrite E in Hi; exact Hi.
    - intros E; destruct (filter _ (text_kernels ps)) as [|k ks] eqn:Ef; [congruence|].
      assert (Hi : In k (filter (fun n => Nat.leb n l) (text_kernels ps))) by (rewrite Ef; left; reflexivity).
      apply filter_In in Hi; destruct Hi as [H1 H2]; apply Nat.leb_le in H2; eauto. }
  rewrite Hf, Ho, named_iff; clear Hf Ho.
  destruct (filter _ (text_kernels ps)) as [|k ks]; [split; [intros (? & H); discriminate|intros (H & _); congruence]|].
  split.
  - intros (net & H); apply bind_ok in H; destruct H as (a & Ha & H); apply bind_ok in H; destruct H as (d & Hd & H); apply bind_ok in H; destruct H as (u & Hu & _).
    apply activation_ok in Ha; apply dropout_ok in Hd; apply rates_iff in Hu; [|lra|lra]; split; [discriminate|]; tauto.
  - intros (_ & Ha & Hd & Hu).
    assert (E1 : activation SupervisedError (or_else (p_activation ps) "relu") = Ok Same) by (apply activation_ok; auto).
    assert (E2 : dropout (or_else (p_dropout ps) (1 # 2)%Q) = Ok Same) by (apply dropout_ok; auto).
    assert (E3 : optimizer (or_else (p_lr ps) (1 # 1000)%Q) (or_else (p_decay ps) 0%Q) = Ok tt) by (apply rates_iff; [lra|lra|exact Hu]).
    rewrite E1; cbn [bind]; rewrite E2; cbn [bind]; rewrite E3; eexists; reflexivity.
Qed.
(* Sequences at least as long as those of the sample then give a row of logits each. *)
Theorem C154_text_forward : forall backend ps n ch l fl ids c seed ema g b g',
  (1 <= n)%nat -> p_layout ps = Some "channels_first" -> Forall (fun k => 1 <= k)%nat (text_kernels ps) ->
  build "text_cnn" backend ps (Tensor [n; ch; l] fl ids) (Some c) seed ema g = Ok (b, g') ->
  forall m l' fl' ids', (l <= l')%nat -> forward (b_net W b) (Tensor [m; ch; l'] fl' ids') = Ok {| logits := [m; Z.to_nat c]; feat := None |}.
Proof.
  intros backend ps n ch l fl ids c seed ema g b g' Hn Hl Hk H; apply build_iff in H; destruct H as (_ & _ & c' & net & [= <-] & _ & H & -> & _).
  intros m l' fl' ids' Hl'; cbn [b_net].
  rewrite text_dispatch, (take_rows n _ fl ids Hn) in H.
  destruct (text_net _ _ ps ch l net H ltac:(rewrite Hl; reflexivity)) as (Hks & f & ->).
  cbn [forward]; rewrite text_ok; [reflexivity|exact Hks|].
  apply Forall_forall; intros k Hi; apply filter_In in Hi; destruct Hi as [H1 H2]; apply Nat.leb_le in H2.
  rewrite Forall_forall in Hk; specialize (Hk k H1); lia.
Qed.
(* With the default layout the factory reads the channels from the last dimension, but the network still wants them first: unless
   sequences are as long as they have channels, no batch of that layout passes.  Flat features never pass. *)
Theorem C154_text_layout_refuted : forall backend ps n l ch fl ids c seed ema g b g',
  (1 <= n)%nat -> p_layout ps = None -> l <> ch ->
  build "text_cnn" backend ps (Tensor [n; l; ch] fl ids) (Some c) seed ema g = Ok (b, g') ->
  forall m l' fl' ids', l' <> ch -> forward (b_net W b) (Tensor [m; l'; ch] fl' ids') = Err RuntimeError.
Proof.
  intros backend ps n l ch fl ids c seed ema g b g' Hn Hl Hk H; apply build_iff in H; destruct H as (_ & _ & c' & net & [= <-] & _ & H & -> & _).
  intros m l' fl' ids' Hl'; cbn [b_net].
  rewrite text_dispatch, (take_rows n _ fl ids Hn) in H.
  destruct (text_net _ _ ps ch l net H ltac:(rewrite Hl; reflexivity)) as (Hks & f & ->).
  cbn [forward]; rewrite text_wrong; [reflexivity|exact Hks|exact Hl'].
Qed.
Theorem C154_text_flat_refuted : forall backend ps n l fl ids c seed ema g b g',
  (1 <= n)%nat ->
  build "text_cnn" backend ps (Tensor [n; l] fl ids) (Some c) seed ema g = Ok (b, g') ->
  forall m l' fl' ids' o, forward (b_net W b) (Tensor [m; l'] fl' ids') <> Ok o.
Proof.
  intros backend ps n l fl ids c seed ema g b g' Hn H; apply build_iff in H; destruct H as (_ & _ & c' & net & [= <-] & _ & H & -> & _).
  intros m l' fl' ids' o Ho; cbn [b_net] in Ho.
  rewrite text_dispatch, (take_rows n _ fl ids Hn) in H.
  destruct (text_net _ _ ps 1%nat l net H eq_refl) as (Hks & f & ->).
  cbn [forward] in Ho; apply bind_ok in Ho; destruct Ho as (s & Hs & _); exact (text_flat _ _ _ _ _ _ Hks s Hs).
Qed.

(* ----- lstm_scratch ----- *)
Lemma width_ok ps w : lstm_width ps = Ok w -> width_asked ps w.
Proof using Type.
  unfold lstm_width; destruct (p_hidden_dim ps) as [h|] eqn:E1; [intros [= <-]; now apply w_dim|].
  destruct (p_hidden_size ps) as [h|] eqn:E2; [intros [= <-]; now apply w_size|].
  destruct (p_hidden_sizes ps) as [[h|[|h l]|]|] eqn:E3; try discriminate; intros [= <-]; [now apply w_int|eapply w_sizes; eassumption|now apply w_default].
Qed.
Lemma lstm_dispatch x k ps : dispatch pretrained "lstm_scratch" x k ps = build_lstm x k ps. Proof. reflexivity. Qed.
Lemma lstm_net n r fl ids k ps net : (1 <= n)%nat -> build_lstm (take_sample (Tensor (n :: r) fl ids)) k ps = Ok net ->
  exists v w, vocabulary (take_sample (Tensor (n :: r) fl ids)) (p_vocab ps) = Ok v /\ 0 <= v /\ width_asked ps w /\ 0 < w /\
    net = Recurrent (Z.to_nat v) (match p_embed ps with Some e => e | None => 128%nat end) (Z.to_nat w) (p_both ps) k (p_features ps).
Proof.
  intros Hn H; rewrite (take_rows n r fl ids Hn) in *; unfold build_lstm in H.
  assert (Et : forall i, take_sample (Tensor (1%nat :: r) fl i) = Tensor (1%nat :: r) fl i) by reflexivity.
  rewrite Et in H; cbv zeta in H; apply bind_ok in H; destruct H as (v & Hv & H); apply bind_ok in H; destruct H as (w & Hw & H).
  destruct (Z.ltb_spec v 0); [discriminate|]; destruct (Z.leb_spec w 0); [discriminate|].
  destruct (or_else (p_num_layers ps) 1 <=? 0); [discriminate|].
  apply bind_ok in H; destruct H as (a & _ & H); cbn [bind] in H; apply bind_ok in H; destruct H as (u & _ & [= <-]).
  exists v, w; repeat split; try assumption; [apply width_ok; exact Hw].
Qed.
(* With a vocabulary size: built exactly when the width and the number of layers are positive, the dropout is a probability and the
   rates are not negative. *)
Theorem C154_lstm : forall backend ps n r fl ids c seed ema g,
  torch_backend backend -> 0 < c -> (1 <= n)%nat -> 0 < p_vocab ps ->
  ((exists b g', build "lstm_scratch" backend ps (Tensor (n :: r) fl ids) (Some c) seed ema g = Ok (b, g')) <->
   (exists w, width_asked ps w /\ 0 < w) /\ holds (fun k => 0 < k) (p_num_layers ps) /\ holds (fun q => 0 <= q <= 1)%Q (p_dropout ps) /\ rates_fine ps).
Proof.
  intros backend ps n r fl ids c seed ema g Hb Hc Hn Hv.
  rewrite built; [|assumption|assumption|rewrite (take_rows n _ fl ids Hn); discriminate].
  rewrite lstm_dispatch, (take_rows n _ fl ids Hn); unfold build_lstm.
  assert (Et : forall i, take_sample (Tensor (1%nat :: r) fl i) = Tensor (1%nat :: r) fl i) by reflexivity.
  rewrite Et; cbv zeta; unfold vocabulary; destruct (Z.ltb_spec 0 (p_vocab ps)); [|lia]; cbn [bind]; destruct (Z.ltb_spec (p_vocab ps) 0); [lia|].
  rewrite <- (or_else_holds (fun k => 0 < k) (p_num_layers ps) 1), <- (or_else_holds (fun q => 0 <= q <= 1)%Q (p_dropout ps) 0%Q) by (try lia; lra).
  split.
  - intros (net & E); apply bind_ok in E; destruct E as (w & Hw & E); apply width_ok in Hw.
    destruct (Z.leb_spec w 0); [discriminate|]; destruct (Z.leb_spec (or_else (p_num_layers ps) 1) 0); [discriminate|].
    apply bind_ok in E; destruct E as (a & Ha & E); apply dropout_ok in Ha; cbn [bind] in E; apply bind_ok in E; destruct E as (u & Hu & _).
    apply rates_iff in Hu; [|lra|lra]; split; [eauto|]; split; [assumption|]; split; [apply Ha|exact Hu].
  - intros ((w & Hw & Hw0) & Hk & Hd & Hu).
    assert (Ew : lstm_width ps = Ok w) by (unfold lstm_width; destruct Hw as [h E|h E E'|h l E E' E''|h E E' E''|E E' E'']; rewrite E, ?E', ?E''; reflexivity).
    assert (E2 : dropout (or_else (p_dropout ps) 0%Q) = Ok Same) by (apply dropout_ok; auto).
    assert (E3 : optimizer (or_else (p_lr ps) (1 # 1000)%Q) (or_else (p_decay ps) 0%Q) = Ok tt) by (apply rates_iff; [lra|lra|exact Hu]).
    rewrite Ew; cbn [bind]; destruct (Z.leb_spec w 0); [lia|]; destruct (Z.leb_spec (or_else (p_num_layers ps) 1) 0); [lia|].
    rewrite E2; cbn [bind]; rewrite E3; eexists; reflexivity.
Qed.
(* With a vocabulary size, batches of sequences of words in it, and embedded sequences, give a row of logits each; the features are
   the last states, of both directions if there are two. *)
Theorem C154_lstm_forward : forall backend ps n r fl ids c seed ema g b g',
  (1 <= n)%nat -> 0 < p_vocab ps ->
  build "lstm_scratch" backend ps (Tensor (n :: r) fl ids) (Some c) seed ema g = Ok (b, g') ->
  exists w, width_asked ps w /\ 0 < w /\
    let feats m := if p_features ps then Some [m; if p_both ps then (2 * Z.to_nat w)%nat else Z.to_nat w] else None in
    (forall m l fl' ids' o, forward (b_net W b) (Tensor [m; l] fl' ids') = Ok o <->
      (forall i, In i ids' -> 0 <= i < p_vocab ps) /\ (1 <= l)%nat /\ logits o = [m; Z.to_nat c] /\ feat o = feats m) /\
    (forall m l fl' ids' o, forward (b_net W b) (Tensor [m; l; match p_embed ps with Some e => e | None => 128%nat end] fl' ids') = Ok o <->
      (1 <= l)%nat /\ logits o = [m; Z.to_nat c] /\ feat o = feats m).
Proof.
  intros backend ps n r fl ids c seed ema g b g' Hn Hv H; apply build_iff in H; destruct H as (_ & _ & c' & net & [= <-] & _ & H & -> & _).
  rewrite lstm_dispatch in H; destruct (lstm_net _ _ _ _ _ _ _ Hn H) as (v & w & E & Hv0 & Hw & Hw0 & ->).
  exists w; split; [exact Hw|split; [exact Hw0|cbv zeta; cbn [b_net forward]]].
  assert (Ev : v = p_vocab ps) by (unfold vocabulary in E; destruct (Z.ltb_spec 0 (p_vocab ps)); [injection E as <-; reflexivity|lia]).
  split; intros; [|apply lstm_embedded].
  rewrite lstm_ids, Z2Nat.id, Ev by lia; reflexivity.
Qed.
(* Without one, the vocabulary is guessed from the first row of integers: the network takes the data it was built from exactly when
   every word is at most some word of the first row. *)
Theorem C154_lstm_vocabulary : forall backend ps n l ids c seed ema g b g',
  (1 <= n)%nat -> length ids = (n * l)%nat -> p_vocab ps <= 0 ->
  build "lstm_scratch" backend ps (Tensor [n; l] false ids) (Some c) seed ema g = Ok (b, g') ->
  ((exists o, forward (b_net W b) (Tensor [n; l] false ids) = Ok o) <-> forall i, In i ids -> 0 <= i /\ exists j, In j (firstn l ids) /\ i <= j).
Proof.
  intros backend ps n l ids c seed ema g b g' Hn Hl Hv H; apply build_iff in H; destruct H as (_ & _ & c' & net & [= <-] & _ & H & -> & _).
  rewrite lstm_dispatch in H; destruct (lstm_net _ _ _ _ _ _ _ Hn H) as (v & w & E & Hv0 & Hw & Hw0 & ->).
  rewrite (take_rows n [l] false ids Hn) in E; unfold vocabulary in E; destruct (Z.ltb_spec 0 (p_vocab ps)); [lia|].
  assert (Er : (if Nat.ltb 1 n then firstn (row_size [l]) ids else ids) = firstn l ids).
  { unfold row_size; cbn [fold_right]; rewrite Nat.mul_1_r; destruct (Nat.ltb_spec 1 n); [reflexivity|].
    symmetry; apply firstn_all2; nia. }
  rewrite Er in E; apply bind_ok in E; destruct E as (m & Hm & [= <-]).
  destruct (max_of_ok _ _ Hm) as [Hin Hmax].
  assert (Hl1 : (1 <= l)%nat) by (destruct l; [destruct Hin|lia]).
  cbn [b_net forward]; split.
  - intros (o & Ho) i Hi; apply lstm_ids in Ho; destruct Ho as (F & _); specialize (F i Hi); rewrite Z2Nat.id in F by lia.
    split; [lia|exists m; split; [exact Hin|lia]].
  - intros F; eexists {| logits := _; feat := _ |}; apply lstm_ids; split; [|split; [exact Hl1|split; reflexivity]].
    intros i Hi; destruct (F i Hi) as (Hi0 & j & Hj & Hij); specialize (Hmax j Hj); rewrite Z2Nat.id by lia; lia.
Qed.

(* ----- graphsage_inductive ----- *)
Lemma sage_dispatch x k ps : dispatch pretrained "graphsage_inductive" x k ps = build_sage x k ps. Proof. reflexivity. Qed.
Lemma sage_iff x k ps s d : rev s = d :: tl (rev s) -> (x = Graph s \/ exists fl ids, x = Tensor s fl ids) -> forall net,
  build_sage x k ps = Ok net <-> sage_sizes_fine ps /\ rates_fine ps /\ exists mids, between ps mids /\ net = Sage (d :: mids ++ [k]) (match p_dropout ps with Some q => q | None => (1 # 2)%Q end).
Proof.
  intros Hs Hx net.
  set (rest := fun hs => do _ <- optimizer (or_else (p_lr ps) (1 # 100)%Q) (or_else (p_decay ps) (5 # 10000)%Q);
    Ok (Sage (match hs with Some l => [d] ++ map Z.to_nat l ++ [k]
                     | None => [d] ++ repeat (or_else (p_hidden_channels ps) 128%nat) (Z.to_nat (or_else (p_num_layers ps) 2 - 1)) ++ [k] end) (or_else (p_dropout ps) (1 # 2)%Q))).
  assert (R : forall hs, rest hs = Ok net <-> rates_fine ps /\ net = Sage (match hs with Some l => [d] ++ map Z.to_nat l ++ [k]
      | None => [d] ++ repeat (or_else (p_hidden_channels ps) 128%nat) (Z.to_nat (or_else (p_num_layers ps) 2 - 1)) ++ [k] end) (or_else (p_dropout ps) (1 # 2)%Q)).
  { intros hs; unfold rest; rewrite bind_ok; split.
    - intros (u & Hu & [= <-]); apply rates_iff in Hu; [auto|lra|lra].
    - intros (Hu & ->); exists tt; split; [apply rates_iff; [lra|lra|exact Hu]|reflexivity]. }
  assert (X : forall B (f : nat -> result B), bind match x with Graph s | Tensor s _ _ => match rev s with d :: _ => Ok d | [] => Err IndexError end | Strange => Err InductiveValidationError end f = f d).
  { intros B f; destruct Hx as [->|(fl & ids & ->)]; rewrite Hs; reflexivity. }
  assert (L : forall l hs, (if existsb (fun h => h <=? 0) l then Err InductiveValidationError else
             match p_num_layers ps with
             | Some n => if n =? Z.of_nat (length l) + 1 then Ok (Some l) else Err InductiveValidationError
             | None => Ok (Some l)
             end) = Ok hs <-> hs = Some l /\ Forall (fun h => 0 < h) l /\ holds (fun k => k = Z.of_nat (length l) + 1) (p_num_layers ps)).
  { intros l hs; unfold holds.
    assert (F : existsb (fun h => h <=? 0) l = false <-> Forall (fun h => 0 < h) l).
    { clear; induction l as [|h l IH]; cbn; [split; auto|]; rewrite orb_false_iff, IH; split; [intros [H1 H2]; constructor; [lia|exact H2]|intros H; inversion H; split; [lia|assumption]]. }
    destruct (existsb _ l); [split; [discriminate|intros (_ & H & _); apply F in H; discriminate]|].
    assert (F' : Forall (fun h => 0 < h) l) by (apply F; reflexivity).
    destruct (p_num_layers ps) as [m|].
    - destruct (Z.eqb_spec m (Z.of_nat (length l) + 1)); [|split; [discriminate|intros (_ & _ & H); specialize (H m eq_refl); cbn beta in H; lia]].
      split; [intros [= <-]; split; [reflexivity|split; [exact F'|intros a [= <-]; assumption]]|intros (-> & _); reflexivity].
    - split; [intros [= <-]; split; [reflexivity|split; [exact F'|intros a E; discriminate]]|intros (-> & _); reflexivity]. }
  unfold build_sage, sage_sizes_fine; destruct (p_hidden_sizes ps) as [[h|l|]|] eqn:E; cbn [bind].
  - split.
    + intros H; apply bind_ok in H; destruct H as (hs & H1 & H2); rewrite X in H2; change (rest hs = Ok net) in H2; apply (L [h]) in H1; destruct H1 as (-> & F & Hh); apply R in H2; destruct H2 as (Hr & ->).
      inversion F; subst; split; [auto|split; [exact Hr|exists [Z.to_nat h]; split; [now apply b_int|reflexivity]]].
    + intros ((F & Hh) & Hr & mids & Hm & ->); inversion Hm as [l E'|h' E'|E']; rewrite E in E'; try discriminate; injection E' as <-; subst mids.
      apply bind_ok; exists (Some [h]); split; [apply (L [h]); repeat split; [constructor; auto|exact Hh]|rewrite X; apply (R (Some [h])); split; [exact Hr|reflexivity]].
  - split.
    + intros H; apply bind_ok in H; destruct H as (hs & H1 & H2); rewrite X in H2; change (rest hs = Ok net) in H2; apply (L l) in H1; destruct H1 as (-> & F & Hh); apply R in H2; destruct H2 as (Hr & ->).
      split; [auto|split; [exact Hr|exists (map Z.to_nat l); split; [now apply b_list|reflexivity]]].
    + intros ((F & Hh) & Hr & mids & Hm & ->); inversion Hm as [l' E'|h' E'|E']; rewrite E in E'; try discriminate; injection E' as <-; subst mids.
      apply bind_ok; exists (Some l); split; [apply (L l); auto|rewrite X; apply (R (Some l)); split; [exact Hr|reflexivity]].
  - split; [discriminate|intros ([] & _)].
  - rewrite X; etransitivity; [exact (R None)|]; split.
    + intros (Hr & ->); split; [exact I|split; [exact Hr|eexists; split; [now apply b_count|reflexivity]]].
    + intros (_ & Hr & mids & Hm & ->); inversion Hm as [l' E'|h' E'|E']; try (rewrite E in E'; discriminate); subst mids; split; [exact Hr|reflexivity].
Qed.
(* Built from a graph or a feature tensor exactly when the sizes given are positive and agree with the number of layers given, and
   the rates are not negative. *)
Theorem C154_sage : forall backend ps s d x c seed ema g,
  torch_backend backend -> 0 < c -> (x = Graph (s ++ [d]) \/ exists n r fl ids, (1 <= n)%nat /\ s = n :: r /\ x = Tensor (s ++ [d]) fl ids) ->
  ((exists b g', build "graphsage_inductive" backend ps x (Some c) seed ema g = Ok (b, g')) <-> sage_sizes_fine ps /\ rates_fine ps).
Proof.
  intros backend ps s d x c seed ema g Hb Hc Hx.
  assert (T : exists s', rev s' = d :: tl (rev s') /\ (take_sample x = Graph s' \/ exists fl ids, take_sample x = Tensor s' fl ids)).
  { destruct Hx as [->|(n & r & fl & ids & Hn & -> & ->)]; [exists (s ++ [d]); rewrite rev_app_distr; auto|].
    cbn [app]; rewrite (take_rows n (r ++ [d]) fl ids Hn); exists ((1%nat :: r) ++ [d]); rewrite rev_app_distr; split; [reflexivity|right; do 2 eexists; reflexivity]. }
  destruct T as (s' & T1 & T2).
  rewrite built; [|assumption|assumption|destruct T2 as [->|(? & ? & ->)]; discriminate].
  rewrite sage_dispatch; split.
  - intros (net & H); apply (sage_iff _ _ _ _ _ T1 T2) in H; tauto.
  - intros (H1 & H2).
    assert (M : exists mids, between ps mids).
    { destruct (p_hidden_sizes ps) as [[h|l|]|] eqn:E; [eexists; eapply b_int; exact E|eexists; eapply b_list; exact E|unfold sage_sizes_fine in H1; rewrite E in H1; destruct H1|eexists; eapply b_count; exact E]. }
    destruct M as (mids & M); eexists; apply (sage_iff _ _ _ _ _ T1 T2); split; [exact H1|split; [exact H2|exists mids; split; [exact M|reflexivity]]].
Qed.
(* Graphs with that many features per node give a row of logits per node, and the features before the last layer, when the dropout
   is a probability or there is a single layer; feature tensors are never taken. *)
Theorem C154_sage_forward : forall backend ps s d x c seed ema g b g',
  (x = Graph (s ++ [d]) \/ exists n r fl ids, (1 <= n)%nat /\ s = n :: r /\ x = Tensor (s ++ [d]) fl ids) ->
  build "graphsage_inductive" backend ps x (Some c) seed ema g = Ok (b, g') ->
  exists mids, between ps mids /\
    (forall s' o, forward (b_net W b) (Graph s') = Ok o <->
      exists pre, s' = pre ++ [d] /\ logits o = pre ++ [Z.to_nat c] /\ feat o = Some (pre ++ [last mids d]) /\ (mids = [] \/ holds (fun q => 0 <= q <= 1)%Q (p_dropout ps))) /\
    (forall s' fl ids, forward (b_net W b) (Tensor s' fl ids) = Err ValueError).
Proof.
  intros backend ps s d x c seed ema g b g' Hx H; apply build_iff in H; destruct H as (_ & _ & c' & net & [= <-] & _ & H & -> & _).
  assert (T : exists s', rev s' = d :: tl (rev s') /\ (take_sample x = Graph s' \/ exists fl ids, take_sample x = Tensor s' fl ids)).
  { destruct Hx as [->|(n & r & fl & ids & Hn & -> & ->)]; [exists (s ++ [d]); rewrite rev_app_distr; auto|].
    cbn [app]; rewrite (take_rows n (r ++ [d]) fl ids Hn); exists ((1%nat :: r) ++ [d]); rewrite rev_app_distr; split; [reflexivity|right; do 2 eexists; reflexivity]. }
  destruct T as (s' & T1 & T2); rewrite sage_dispatch in H; apply (sage_iff _ _ _ _ _ T1 T2) in H; destruct H as (_ & _ & mids & M & ->).
  exists mids; split; [exact M|cbn [b_net forward]; split; [|reflexivity]].
  assert (Ho : forall q0 : Q, q0 = match p_dropout ps with Some q => q | None => (1 # 2)%Q end -> (holds (fun q => 0 <= q <= 1)%Q (p_dropout ps) <-> (0 <= q0 <= 1)%Q)).
  { intros q0 ->; symmetry; apply (or_else_holds (fun q => 0 <= q <= 1)%Q (p_dropout ps) (1 # 2)%Q); lra. }
  intros s1 o; rewrite bind_ok; split.
  - intros ((f & l) & H & [= <-]); apply sage_ok in H; destruct H as (pre & -> & -> & -> & Hq).
    exists pre; rewrite (Ho _ eq_refl); auto.
  - intros (pre & -> & E1 & E2 & Hq); rewrite (Ho _ eq_refl) in Hq.
    exists (pre ++ [last mids d], pre ++ [Z.to_nat c]); split; [apply sage_ok; exists pre; auto|].
    destruct o as [l f]; cbn in E1, E2; subst; reflexivity.
Qed.
End Props.

(* ----- the hypotheses are met ----- *)
Definition bx : params := {| p_hidden_sizes := Some (HList [4; 3]); p_hidden_dim := None; p_activation := Some "gelu"; p_dropout := Some (1 # 2)%Q; p_lr := None;
  p_decay := None; p_features := true; p_channels := Some [6; 7]%nat; p_kernel := Some 2%nat; p_fc := Some 0; p_input_shape := Some [4; 5]; p_kernels := Some [2; 9]%nat;
  p_filters := Some 8%nat; p_layout := Some "channels_first"; p_vocab := 0; p_embed := Some 5%nat; p_hidden_size := None; p_num_layers := Some 3; p_both := true;
  p_hidden_channels := None |}.
Definition bx_default : params := {| p_hidden_sizes := None; p_hidden_dim := None; p_activation := None; p_dropout := None; p_lr := None; p_decay := None; p_features := false;
  p_channels := None; p_kernel := None; p_fc := None; p_input_shape := None; p_kernels := None; p_filters := None; p_layout := None; p_vocab := 0; p_embed := None;
  p_hidden_size := None; p_num_layers := None; p_both := true; p_hidden_channels := None |}.
Definition bx_build id ps x c := BundleModel.build Z Z (fun s => s * 7 + 1) (fun _ g => (g, g + 1)) (fun _ _ _ _ => Err OptionalDependencyError) id None ps x (Some c) 5 true 0.
Definition bx_out id ps x c y := match bx_build id ps x c with Ok (b, _) => forward (b_net Z b) y | Err e => Err e end.
Example C154_mlp_example : bx_out "mlp" bx (Tensor [9; 11]%nat true []) 3 (Tensor [2; 11]%nat true []) = Ok {| logits := [2; 3]%nat; feat := Some [2; 3]%nat |}.
Proof. reflexivity. Qed.
Example C154_logreg_example : bx_out "logreg" bx_default (Tensor [9; 11]%nat true []) 3 (Tensor [2; 11]%nat true []) = Ok {| logits := [2; 3]%nat; feat := None |}.
Proof. reflexivity. Qed.
Example C154_rank_example : bx_out "mlp" bx_default (Tensor [9; 2; 3]%nat true []) 3 (Tensor [9; 2; 3]%nat true []) = Err RuntimeError.
Proof. reflexivity. Qed.
Example C154_image_example : bx_out "image_cnn" bx (Tensor [9; 3; 8; 8]%nat true []) 4 (Tensor [2; 3; 5; 1]%nat true []) = Ok {| logits := [2; 4]%nat; feat := Some [2; 7]%nat |}.
Proof. reflexivity. Qed.
Example C154_image_refuted_example : bx_out "image_cnn" bx_default (Tensor [9; 8; 8]%nat true []) 4 (Tensor [9; 8; 8]%nat true []) = Err RuntimeError /\
  bx_out "image_cnn" bx (Tensor [9; 20]%nat true []) 4 (Tensor [9; 20]%nat true []) = Err RuntimeError.
Proof. split; reflexivity. Qed.
Example C154_audio_example : bx_out "audio_cnn" bx_default (Tensor [9; 2; 30]%nat true []) 4 (Tensor [6; 2; 17]%nat true []) = Ok {| logits := [6; 4]%nat; feat := None |} /\
  bx_out "audio_cnn" bx_default (Tensor [9; 30]%nat true []) 4 (Tensor [9; 30]%nat true []) = Err RuntimeError.
Proof. split; reflexivity. Qed.
Example C154_text_example : bx_out "text_cnn" bx (Tensor [9; 3; 5]%nat true []) 4 (Tensor [2; 3; 6]%nat true []) = Ok {| logits := [2; 4]%nat; feat := None |} /\
  bx_out "text_cnn" bx_default (Tensor [9; 20; 16]%nat true []) 4 (Tensor [9; 20; 16]%nat true []) = Err RuntimeError /\
  bx_out "text_cnn" bx_default (Tensor [9; 20]%nat true []) 4 (Tensor [9; 20]%nat true []) = Err RuntimeError.
Proof. repeat split; reflexivity. Qed.
Example C154_lstm_example : bx_out "lstm_scratch" bx (Tensor [2; 2]%nat false [1; 3; 0; 2]) 4 (Tensor [2; 2]%nat false [1; 3; 0; 2]) = Ok {| logits := [2; 4]%nat; feat := Some [2; 8]%nat |} /\
  bx_out "lstm_scratch" bx (Tensor [2; 2]%nat false [1; 2; 0; 3]) 4 (Tensor [2; 2]%nat false [1; 2; 0; 3]) = Err IndexError.
Proof. split; reflexivity. Qed.
Definition bx_words : params := {| p_hidden_sizes := Some (HList [4]); p_hidden_dim := None; p_activation := None; p_dropout := None; p_lr := None; p_decay := None;
  p_features := false; p_channels := None; p_kernel := None; p_fc := None; p_input_shape := None; p_kernels := None; p_filters := None; p_layout := None; p_vocab := 10;
  p_embed := None; p_hidden_size := None; p_num_layers := None; p_both := false; p_hidden_channels := None |}.
Example C154_words_example : bx_out "lstm_scratch" bx_words (Tensor [2; 2]%nat false [1; 2; 0; 3]) 4 (Tensor [3; 1]%nat false [9; 0; 5]) = Ok {| logits := [3; 4]%nat; feat := None |}.
Proof. reflexivity. Qed.
Example C154_sage_example : bx_out "graphsage_inductive" bx (Graph [9; 11]%nat) 4 (Graph [9; 11]%nat) = Ok {| logits := [9; 4]%nat; feat := Some [9; 3]%nat |} /\
  bx_out "graphsage_inductive" bx (Tensor [9; 11]%nat true []) 4 (Tensor [9; 11]%nat true []) = Err ValueError.
Proof. split; reflexivity. Qed.

Print Assumptions C154_refused.
Print Assumptions C154_seeded.
Print Assumptions C154_mlp.
Print Assumptions C154_mlp_forward.
Print Assumptions C154_mlp_rank_refuted.
Print Assumptions C154_image.
Print Assumptions C154_image_forward.
Print Assumptions C154_image_channels_refuted.
Print Assumptions C154_audio.
Print Assumptions C154_audio_forward.
Print Assumptions C154_audio_channels_refuted.
Print Assumptions C154_text.
Print Assumptions C154_text_forward.
Print Assumptions C154_text_layout_refuted.
Print Assumptions C154_text_flat_refuted.
Print Assumptions C154_lstm_forward.
Print Assumptions C154_lstm_vocabulary.
Print Assumptions C154_sage.
Print Assumptions C154_sage_forward.
Print Assumptions C154_lstm.
