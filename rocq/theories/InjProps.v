(* C155: what the benchmark hands to inductive methods: conversions to torch, benchmark-mode checks, views, model bundles. *)
From Coq Require Import String QArith Qround Lia ZifyBool ZifyNat.
From Verif Require Import Prelude BundleModel BundleSpec BundleProofs BundleProps InjModel InjSpec InjProofs.
Local Open Scope string_scope.
Local Open Scope Z_scope.
Local Open Scope list_scope.
Local Notation length := List.length.

(* Torch-backed: a tensor, or a dict with a tensor in it and no array. *)
Theorem C155_container : forall v,
  is_container v = true <-> (exists a d, v = VTensor a d) \/ (exists l, v = VDict l) /\ has_tensor v /\ ~ has_array v.
Proof. exact container_iff. Qed.

Section Convert.
Context (asarray : value -> result arr).
Local Notation smart := (smart asarray).
(* Conversion leaves dicts of None and tensors on the device, in the same places; uint8 arrays are divided by 255, float64 becomes
   float32, and a second conversion changes nothing. *)
Theorem C155_to_torch : forall device v v', smart device v = Ok v' ->
  torch_only device v' /\ smart device v' = Ok v' /\
  (forall p, at_path p v = None <-> at_path p v' = None) /\
  (forall p, at_path p v = Some VNone -> at_path p v' = Some VNone) /\
  (forall p a d, at_path p v = Some (VTensor a d) -> at_path p v' = Some (VTensor a (match device with Some d' => d' | None => d end))) /\
  (forall p a, at_path p v = Some (VArray a) ->
    exists b, at_path p v' = Some (VTensor b (match device with Some d' => d' | None => "cpu" end)) /\ a_shape b = a_shape a /\
      (a_type a = U8 -> a_type b = Floating /\ a_vals b = map (fun q => q / 255)%Q (a_vals a)) /\
      (a_type a = F64 -> a_type b = Floating /\ a_vals b = a_vals a) /\
      (a_type a <> U8 -> a_type a <> F64 -> b = a)).
Proof using Type.
  intros device v v' H.
  pose proof (smart_torch asarray device v v' H) as T.
  split; [exact T|split; [apply smart_same; exact T|]].
  pose proof (fun p x => smart_path asarray device p v v' H x) as P.
  repeat split.
  - intros E; exact (smart_path_none asarray device p v v' H E).
  - intros E; destruct (at_path p v) as [x|] eqn:Ex; [destruct (P p x Ex) as (x' & Hx & _); congruence|reflexivity].
  - intros p E; destruct (P p VNone E) as (x' & -> & [= <-]); reflexivity.
  - intros p a d E; destruct (P p (VTensor a d) E) as (x' & -> & [= <-]); reflexivity.
  - intros p a E; destruct (P p (VArray a) E) as (x' & -> & [= <-]); exists (as_tensor a); split; [reflexivity|].
    unfold as_tensor; destruct (a_type a) eqn:Et; cbn; repeat split; intros; congruence.
Qed.
(* What unit scaling an image gets depends on who made the tensor: of one picture, the uint8 array is scaled, the uint8 tensor is not. *)
Theorem C155_uint8_refuted : forall a d, a_type a = U8 -> (exists q, In q (a_vals a) /\ ~ q == 0)%Q ->
  exists x y, smart None (VArray a) = Ok (VTensor x "cpu") /\ smart None (VTensor a d) = Ok (VTensor y d) /\ a_vals y = a_vals a /\ a_vals x <> a_vals a /\ a_type x <> a_type y.
Proof using Type.
  intros a d Ht (q & Hq & Nq); exists (as_tensor a), a; split; [reflexivity|split; [reflexivity|split; [reflexivity|]]].
  unfold as_tensor; rewrite Ht; cbn; split; [|congruence].
  intros E; apply Nq.
  assert (G : forall l : list Q, map (fun q => q / 255)%Q l = l -> forall q, In q l -> (q == 0)%Q).
  { induction l as [|x l IH]; [intros _ y []|]; intros El y Hy0; cbn [map] in El; pose proof (f_equal (@tl Q) El) as E2; pose proof (f_equal (hd 0%Q) El) as E1; cbn [tl hd] in E1, E2; destruct Hy0 as [<-|Hy]; [|exact (IH E2 y Hy)].
    assert (Ex : (x / 255 == x)%Q) by (rewrite E1; reflexivity).
    assert (Ey : (x == x * 255)%Q) by (rewrite <- Ex at 2; field).
    unfold Qeq in Ey |- *; destruct x as [n p]; cbn in *; nia. }
  exact (G (a_vals a) E q Hq).
Qed.

(* Benchmark mode: exactly the inputs that are torch-backed where the method requires torch, with features of rank 2 or more and, as
   tensors, floating; the labels as many as the rows when both have a length. *)
Theorem C155_strict : forall req xl yl others u,
  strict_inputs req xl yl others = Ok u <->
  Forall (strictly_fine req) (xl :: others) /\ (forall n m, rows xl n -> rows yl m -> n = m).
Proof using Type.
  intros req xl yl others u; setoid_rewrite <- len0_rows; unfold strict_inputs; rewrite bind_ok; split.
  - intros (w & H & E); split; [apply (strict_values_ok req _ w); exact H|]; intros n m En Em; rewrite En, Em in E; destruct (Nat.eqb_spec n m); [assumption|discriminate].
  - intros (H & E); exists tt; split; [apply strict_values_ok; exact H|]; destruct u, (len0 xl) as [n|]; [|reflexivity]; destruct (len0 yl) as [m|]; [|reflexivity].
    rewrite (E n m eq_refl eq_refl), Nat.eqb_refl; reflexivity.
Qed.

(* Outside benchmark mode, for a method that runs on torch: augmentations become tensors on the device of torch-backed labelled rows,
   else everything becomes tensors on the requested device. *)
Theorem C155_auto : forall device i i', convert asarray true device i = Ok i' ->
  (is_container (i_l i) = true -> i_l i' = i_l i /\ i_u i' = i_u i /\
    Forall (torch_only (Some (match device_of (i_l i) with Some d => d | None => "cpu" end))) [i_w i'; i_s i'; i_s1 i']) /\
  (is_container (i_l i) = false -> Forall (torch_only device) [i_l i'; i_u i'; i_w i'; i_s i'; i_s1 i']) /\
  convert asarray false device i = Ok i.
Proof using Type.
  intros device i i' H; unfold convert in H; cbn [negb] in H; destruct (is_container (i_l i)) eqn:Ec.
  - split; [intros _|split; [discriminate|reflexivity]].
    apply bind_ok in H; destruct H as (w & Hw & H); apply bind_ok in H; destruct H as (s & Hs & H); apply bind_ok in H; destruct H as (s1 & Hs1 & [= <-]); cbn.
    split; [reflexivity|split; [reflexivity|]]; repeat constructor; eapply smart_torch; eassumption.
  - split; [discriminate|split; [intros _|reflexivity]].
    apply bind_ok in H; destruct H as (l & Hl & H); apply bind_ok in H; destruct H as (uu & Hu & H).
    apply bind_ok in H; destruct H as (w & Hw & H); apply bind_ok in H; destruct H as (s & Hs & H); apply bind_ok in H; destruct H as (s1 & Hs1 & [= <-]); cbn.
    repeat constructor; eapply smart_torch; eassumption.
Qed.
(* When a method runs on torch: it says so, or the classifier or backend named does. *)
Theorem C155_when_auto : forall req mb cb b, auto_to_torch req mb cb b = true <->
  req = true \/ mb = Some "torch" \/ cb = Some "torch" \/ cb = None /\ b = Some "torch".
Proof using Type.
  intros req mb cb b; unfold auto_to_torch; destruct req; [split; auto|].
  assert (K : forall o : option string, (match o with Some s => String.eqb s "torch" | None => false end) = true <-> o = Some "torch").
  { intros [s|]; [rewrite String.eqb_eq; split; [intros ->; reflexivity|intros [= ->]; reflexivity]|split; discriminate]. }
  destruct (match mb with Some b => String.eqb b "torch" | None => false end) eqn:Em; [apply K in Em; split; auto|].
  assert (Nm : mb <> Some "torch") by (intros E; apply K in E; congruence).
  destruct cb as [c|].
  - change (String.eqb c "torch" = true <-> false = true \/ mb = Some "torch" \/ Some c = Some "torch" \/ Some c = None /\ b = Some "torch").
    rewrite (K (Some c)); split; [auto|intros [E|[E|[E|[E _]]]]; try discriminate; [destruct (Nm E)|exact E]].
  - rewrite (K b); split; [auto|intros [E|[E|[E|[_ E]]]]; try discriminate; [destruct (Nm E)|exact E]].
Qed.

(* Views: each is cut at the rows of the labelled and the unlabeled data, and, beside torch-backed data, made torch-backed. *)
Context (select : value -> list Z -> result value).
Theorem C155_views : forall views idx_l idx_u ref strict l, build_views asarray select views idx_l idx_u ref strict = Ok l ->
  Forall2 (fun x y => fst x = fst y /\ exists a b, select (snd x) idx_l = Ok a /\ select (snd x) idx_u = Ok b /\
    (is_container ref = false \/ strict = true -> snd y = (a, b)) /\
    (is_container ref = true -> strict = true -> is_container a = true /\ is_container b = true) /\
    (is_container ref = true -> strict = false -> smart (device_of ref) a = Ok (fst (snd y)) /\ smart (device_of ref) b = Ok (snd (snd y)))) views l.
Proof using Type.
  induction views as [|(name & x) views IH]; intros idx_l idx_u ref strict l; cbn [build_views]; [intros [= <-]; constructor|].
  intros H; apply bind_ok in H; destruct H as (a & Ha & H); apply bind_ok in H; destruct H as (b & Hb & H).
  apply bind_ok in H; destruct H as ((xl & xu) & Hx & H); apply bind_ok in H; destruct H as (r & Hr & [= <-]).
  constructor; [|apply IH; exact Hr]; split; [reflexivity|]; exists a, b; split; [exact Ha|split; [exact Hb|]]; cbn [fst snd].
  destruct (is_container ref); [|injection Hx as <- <-; split; [reflexivity|split; discriminate]].
  destruct strict.
  - destruct (is_container a) eqn:Ca; cbn [negb orb] in Hx; [|discriminate]; destruct (is_container b) eqn:Cb; cbn [negb orb] in Hx; [|discriminate].
    injection Hx as <- <-; split; [reflexivity|split; [auto|discriminate]].
  - apply bind_ok in Hx; destruct Hx as (p & Hp & Hx); apply bind_ok in Hx; destruct Hx as (q & Hq & [= <- <-]).
    split; [intros [E|E]; discriminate|split; [discriminate|auto]].
Qed.
(* The views entry: the second strong augmentation for comatch and when there are no views, the views otherwise. *)
Theorem C155_views_entry : forall method views idx_l idx_u ref strict s1 p,
  views_payload asarray select method views idx_l idx_u ref strict s1 = Ok p ->
  (s1 <> VNone -> method = "comatch" \/ views = None -> p = PSecond s1) /\
  (s1 = VNone -> views = None -> p = PNone) /\
  (forall vs, views = Some vs -> s1 = VNone \/ method <> "comatch" -> exists l, p = PViews l /\ build_views asarray select vs idx_l idx_u ref strict = Ok l).
Proof using Type.
  intros method views idx_l idx_u ref strict s1 p H; unfold views_payload in H; apply bind_ok in H; destruct H as (q & Hq & H).
  assert (N : s1 <> VNone -> (if String.eqb method "comatch" then Ok (PSecond s1) else match q with PNone => Ok (PSecond s1) | _ => Ok q end) = Ok p)
    by (intros Ns; destruct s1; [destruct (Ns eq_refl)|exact H..]).
  repeat split.
  - intros Ns [-> | ->]; specialize (N Ns); [rewrite String.eqb_refl in N; injection N as <-; reflexivity|].
    injection Hq as <-; destruct (String.eqb method "comatch"); injection N as <-; reflexivity.
  - intros -> ->; injection Hq as <-; injection H as <-; reflexivity.
  - intros vs -> Hs; apply bind_ok in Hq; destruct Hq as (l & Hl & [= <-]); exists l; split; [|exact Hl].
    destruct s1; try solve [injection H as <-; reflexivity];
      (destruct Hs as [Hs|Hs]; [discriminate|]; specialize (N ltac:(discriminate)); destruct (String.eqb_spec method "comatch"); [contradiction|injection N as <-; reflexivity]).
Qed.
End Convert.

(* ----- model bundles ----- *)
Lemma num_classes_distinct y : counts_distinct y (num_classes y).
Proof. exists (nodup Z.eq_dec y); split; [apply NoDup_nodup|split; [intros z; apply nodup_In|reflexivity]]. Qed.
Lemma counts_unique y k k' : counts_distinct y k -> counts_distinct y k' -> k = k'.
Proof.
  intros (l & Nl & Hl & ->) (l' & Nl' & Hl' & ->).
  assert (length l <= length l')%nat by (apply NoDup_incl_length; [exact Nl|intros z Hz; apply Hl', Hl; exact Hz]).
  assert (length l' <= length l)%nat by (apply NoDup_incl_length; [exact Nl'|intros z Hz; apply Hl, Hl'; exact Hz]).
  lia.
Qed.
(* The networks have as many outputs as there are distinct labels among the labelled rows; these fit (each label is an output) exactly
   when the labels are 0, 1, ..., k - 1. *)
Theorem C155_classes : forall y k, counts_distinct y k ->
  ((forall l, In l y -> 0 <= l < k) <-> (forall l, In l y <-> 0 <= l < k)).
Proof.
  intros y k (d & Nd & Hd & Hk); split; [|intros H l Hl; apply H; exact Hl].
  intros H l; split; [apply H|]; intros Hl.
  set (all := map Z.of_nat (seq 0 (length d))).
  assert (I : incl all d).
  { apply NoDup_length_incl; [exact Nd|unfold all; rewrite map_length, seq_length; lia|].
    intros z Hz; apply Hd, H in Hz; apply in_map_iff; exists (Z.to_nat z); split; [lia|apply in_seq; lia]. }
  apply Hd, I; apply in_map_iff; exists (Z.to_nat l); split; [lia|apply in_seq; lia].
Qed.
(* A class between others that no labelled row has leaves a label without an output. *)
Theorem C155_missing_class_refuted : forall y k c, counts_distinct y k -> (forall l, In l y -> 0 <= l) -> 0 <= c -> ~ In c y -> (exists l, In l y /\ c < l) ->
  exists l, In l y /\ k <= l.
Proof.
  intros y k c Hk Hp Hc Nc (l & Hl & Hcl).
  destruct (Z_lt_le_dec l k) as [Hlk|]; [|exists l; auto].
  destruct (existsb (fun x => k <=? x) y) eqn:E; [apply existsb_exists in E; destruct E as (x & Hx & Hkx); exists x; split; [exact Hx|lia]|].
  exfalso; apply Nc; apply (proj1 (C155_classes y k Hk)); [|lia].
  intros x Hx; split; [apply Hp; exact Hx|].
  destruct (Z_lt_le_dec x k); [assumption|].
  assert (existsb (fun x => k <=? x) y = true) by (apply existsb_exists; exists x; split; [exact Hx|lia]); congruence.
Qed.

Section Bundles.
Context (asarray : value -> result arr) (select : value -> list Z -> result value).
Context (W gen : Type) (seeded : Z -> gen) (draw : net -> gen -> W * gen) (pretrained : string -> sample -> nat -> params -> result net).
Context (factory : gen -> result (bundle W * gen)).
Local Notation build := (build W gen seeded draw pretrained).
Local Notation make_bundle := (make_bundle asarray W gen seeded draw pretrained factory).
Local Notation make_heads := (make_heads asarray W gen seeded draw pretrained factory).
Local Notation inject := (inject asarray select W gen seeded draw pretrained factory).

Definition ema_of (c : model_cfg) (method : string) : bool := match c_ema c with Some b => b | None => String.eqb method "mean_teacher" end.
Lemma make_plain c a d y method seed strict o g b g' : c_factory c = false ->
  make_bundle c (VTensor a d) y method seed strict o None g = Ok (b, g') ->
  exists id, c_id c = Some id /\ (strict = true -> floating (a_type a) = true) /\
    build id (c_backend c) (c_params c) (as_sample (VTensor a d)) (Some (num_classes y)) (seed + o) (ema_of c method) g = Ok (b, g').
Proof.
  intros Hf H; unfold InjModel.make_bundle in H; rewrite Hf in H; cbv zeta in H; cbn [bind] in H.
  apply bind_ok in H; destruct H as (u & Hu & H); destruct (c_id c) as [id|]; [|discriminate].
  exists id; split; [reflexivity|split; [|exact H]].
  intros ->; destruct (floating (a_type a)); [reflexivity|discriminate].
Qed.
Lemma make_weights c xl y method seed strict o over g b g' : c_factory c = false ->
  make_bundle c xl y method seed strict o over g = Ok (b, g') ->
  b_weights W b = fst (draw (b_net W b) (seeded (seed + o))) /\
  b_ema W b = (if match over with Some _ => false | None => ema_of c method end then Some (b_weights W b) else None) /\
  forall g2, make_bundle c xl y method seed strict o over g2 = Ok (b, g').
Proof.
  intros Hf H; unfold InjModel.make_bundle in *; rewrite Hf in *; cbv zeta in *.
  apply bind_ok in H; destruct H as (s & Hs & H); apply bind_ok in H; destruct H as (u & Hu & H).
  destruct (match over with Some (_, i) => Some i | None => c_id c end) as [id|] eqn:Ei; [|discriminate].
  destruct (C154_seeded seeded draw pretrained id (match over with Some _ => Some "torch" | None => c_backend c end) (c_params c) (as_sample s) (Some (num_classes y)) (seed + o)
    (match over with Some _ => false | None => match c_ema c with Some b => b | None => String.eqb method "mean_teacher" end end) g g) as [_ P].
  destruct (P b g' H) as (P1 & _ & P3); split; [exact P1|split; [exact P3|]].
  intros g2; rewrite Hs; cbn [bind]; rewrite Hu; cbn [bind]; exact H.
Qed.
Lemma heads_weights c hs y method seed strict os : c_factory c = false -> forall g bs g',
  make_heads c hs y method seed strict os g = Ok (bs, g') ->
  Forall2 (fun b o => b_weights W b = fst (draw (b_net W b) (seeded (seed + o))) /\ b_ema W b = None) bs os /\
  Forall2 (fun b o => exists g1 g2, make_bundle c hs y method seed strict o (Some (hs, head_id c)) g1 = Ok (b, g2)) bs os /\
  forall g2, os <> [] -> make_heads c hs y method seed strict os g2 = Ok (bs, g').
Proof.
  intros Hf; induction os as [|o os IH]; intros g bs g'; cbn [InjModel.make_heads]; [intros [= <- <-]; repeat constructor; congruence|].
  intros H; apply bind_ok in H; destruct H as ((b & g1) & Hb & H); apply bind_ok in H; destruct H as ((bs' & g2) & Hbs & [= <- <-]).
  destruct (make_weights _ _ _ _ _ _ _ _ _ _ _ Hf Hb) as (P1 & P2 & P3).
  destruct (IH g1 bs' g2 Hbs) as (Q1 & Q2 & Q3).
  split; [constructor; auto|split; [constructor; eauto|]].
  intros g3 _; rewrite (P3 g3); cbn [bind]; rewrite Hbs; reflexivity.
Qed.
Lemma has_iff f fs : existsb (String.eqb f) fs = true <-> In f fs.
Proof. rewrite existsb_exists; split; [intros (x & Hx & E); apply String.eqb_eq in E; subst; exact Hx|intros H; exists f; split; [exact H|apply String.eqb_refl]]. Qed.
Lemma has_not f fs : existsb (String.eqb f) fs = false <-> ~ In f fs.
Proof. rewrite <- has_iff; destruct (existsb (String.eqb f) fs); intuition congruence. Qed.
Lemma both_not f h fs : existsb (String.eqb f) fs && existsb (String.eqb h) fs = false <-> ~ (In f fs /\ In h fs).
Proof. rewrite <- (has_iff f), <- (has_iff h); destruct (existsb (String.eqb f) fs), (existsb (String.eqb h) fs); cbn; intuition congruence. Qed.
Lemma both_yes f h fs : existsb (String.eqb f) fs && existsb (String.eqb h) fs = true <-> In f fs /\ In h fs.
Proof. rewrite <- (has_iff f), <- (has_iff h); apply andb_true_iff. Qed.

(* One field or two or TriNet's four bundles are filled; the weights of each are drawn from a generator seeded with the seed plus its own
   offset; the moving average copies the weights, where asked for; nothing depends on the state of the generator. *)
Theorem C155_seeds : forall fs c xl y method seed strict g ups g', c_factory c = false ->
  inject (Some fs) (Some c) xl y method seed strict g = Ok (ups, g') ->
  (exists slots, receives fs slots /\
    Forall2 (fun up slot => fst up = fst slot /\ Forall2 (fun b o => b_weights W b = fst (draw (b_net W b) (seeded (seed + o)))) (snd up) (snd slot)) ups slots) /\
  (forall f bs b, In (f, bs) ups -> In b bs -> b_ema W b =
    if negb (String.eqb f "head_bundles") && (match c_ema c with Some e => e | None => String.eqb method "mean_teacher" end) then Some (b_weights W b) else None) /\
  (forall g2, inject (Some fs) (Some c) xl y method seed strict g2 = Ok (ups, g')).
Proof using Type.
  intros fs c xl y method seed strict g ups g' Hf H; unfold InjModel.inject in *; cbv zeta in *.
  assert (Two : forall a b g ups g', a <> "head_bundles" -> b <> "head_bundles" ->
    (do ' (b0, g0) <- make_bundle c xl y method seed strict 0 None g; do ' (b1, g1) <- make_bundle c xl y method seed strict 1 None g0; Ok ([(a, [b0]); (b, [b1])], g1)) = Ok (ups, g') ->
    Forall2 (fun up slot => fst up = fst slot /\ Forall2 (fun b o => b_weights W b = fst (draw (b_net W b) (seeded (seed + o)))) (snd up) (snd slot)) ups [(a, [0]); (b, [1])] /\
    (forall f bs b, In (f, bs) ups -> In b bs -> b_ema W b =
      if negb (String.eqb f "head_bundles") && (match c_ema c with Some e => e | None => String.eqb method "mean_teacher" end) then Some (b_weights W b) else None) /\
    (forall g2, (do ' (b0, g0) <- make_bundle c xl y method seed strict 0 None g2; do ' (b1, g1) <- make_bundle c xl y method seed strict 1 None g0; Ok ([(a, [b0]); (b, [b1])], g1)) = Ok (ups, g'))).
  { clear g ups g' H; intros a b g ups g' Na Nb H.
    apply bind_ok in H; destruct H as ((b0 & g0) & H0 & H); apply bind_ok in H; destruct H as ((b1 & g1) & H1 & [= <- <-]).
    destruct (make_weights _ _ _ _ _ _ _ _ _ _ _ Hf H0) as (P1 & P2 & P3); destruct (make_weights _ _ _ _ _ _ _ _ _ _ _ Hf H1) as (R1 & R2 & R3).
    split; [repeat constructor; assumption|split].
    - intros f bs b2 [[= <- <-]|[[= <- <-]|[]]] [<-|[]].
      + destruct (String.eqb_spec a "head_bundles"); [contradiction|exact P2].
      + destruct (String.eqb_spec b "head_bundles"); [contradiction|exact R2].
    - intros g2; rewrite (P3 g2); cbn [bind]; rewrite H1; reflexivity. }
  destruct (existsb (String.eqb "model_bundle") fs) eqn:E1.
  { apply has_iff in E1; apply bind_ok in H; destruct H as ((b & g1) & Hb & [= <- <-]).
    destruct (make_weights _ _ _ _ _ _ _ _ _ _ _ Hf Hb) as (P1 & P2 & P3).
    split; [eexists; split; [apply r_one; exact E1|repeat constructor; exact P1]|split].
    - intros f bs b2 [[= <- <-]|[]] [<-|[]]; exact P2.
    - intros g2; rewrite (P3 g2); reflexivity. }
  apply has_not in E1.
  destruct (existsb (String.eqb "teacher_bundle") fs && existsb (String.eqb "student_bundle") fs) eqn:E2.
  { apply both_yes in E2; destruct E2; destruct (Two "student_bundle" "teacher_bundle" g ups g' ltac:(discriminate) ltac:(discriminate) H) as (T1 & T2 & T3).
    split; [eexists; split; [apply r_teacher; assumption|exact T1]|auto]. }
  apply both_not in E2.
  destruct (existsb (String.eqb "model_bundle_1") fs && existsb (String.eqb "model_bundle_2") fs) eqn:E3.
  { apply both_yes in E3; destruct E3; destruct (Two "model_bundle_1" "model_bundle_2" g ups g' ltac:(discriminate) ltac:(discriminate) H) as (T1 & T2 & T3).
    split; [eexists; split; [apply r_pair; assumption|exact T1]|auto]. }
  apply both_not in E3.
  destruct (existsb (String.eqb "pretrain_bundle") fs && existsb (String.eqb "finetune_bundle") fs) eqn:E4.
  { apply both_yes in E4; destruct E4; destruct (Two "pretrain_bundle" "finetune_bundle" g ups g' ltac:(discriminate) ltac:(discriminate) H) as (T1 & T2 & T3).
    split; [eexists; split; [apply r_stages; assumption|exact T1]|auto]. }
  apply both_not in E4.
  destruct (existsb (String.eqb "shared_bundle") fs && existsb (String.eqb "head_bundles") fs) eqn:E5; [|discriminate].
  apply both_yes in E5; destruct E5 as [E5 E6]; rewrite Hf in *.
  apply bind_ok in H; destruct H as ((sh & g0) & H0 & H); apply bind_ok in H; destruct H as (u & Hu & H); apply bind_ok in H; destruct H as (s & Hs & H).
  apply bind_ok in H; destruct H as (r & Hr & H); apply bind_ok in H; destruct H as ((hs & g1) & Hh & [= <- <-]).
  destruct (make_weights _ _ _ _ _ _ _ _ _ _ _ Hf H0) as (P1 & P2 & P3).
  destruct (heads_weights _ _ _ _ _ _ _ Hf _ _ _ Hh) as (R1 & _ & R3).
  split; [eexists; split; [apply r_heads; assumption|]|split].
  - repeat constructor; [exact P1|]; cbn [snd]; revert R1; clear; intros R1; induction R1 as [|b o bs os [Hb _] _ IH]; constructor; assumption.
  - intros f bs b [[= <- <-]|[[= <- <-]|[]]] Hb; [destruct Hb as [<-|[]]; exact P2|].
    change (b_ema W b = None); clear -R1 Hb; induction R1 as [|b0 o bs os [_ E] _ IH]; [destruct Hb|destruct Hb as [<-|Hb]; [exact E|exact (IH Hb)]].
  - intros g2; rewrite (P3 g2); cbn [bind]; rewrite Hu; cbn [bind]; rewrite Hs; cbn [bind]; rewrite Hr; cbn [bind]; rewrite Hh; reflexivity.
Qed.
(* A factory of bundles in the configuration is not given the seed: what it makes depends on the state of the generator alone. *)
Theorem C155_factory_refuted : forall fields c xl y method seed1 seed2 strict g, c_factory c = true ->
  inject fields (Some c) xl y method seed1 strict g = inject fields (Some c) xl y method seed2 strict g.
Proof using Type.
  intros fields c xl y method seed1 seed2 strict g Hf; unfold InjModel.inject; destruct fields as [fs|]; [|reflexivity]; cbv zeta.
  assert (E : forall o g, make_bundle c xl y method seed1 strict o None g = make_bundle c xl y method seed2 strict o None g)
    by (intros o g0; unfold InjModel.make_bundle; rewrite Hf; reflexivity).
  rewrite Hf, !E.
  destruct (make_bundle c xl y method seed2 strict 0 None g) as [(b0 & g0)|e]; cbn [bind]; [rewrite !E|]; reflexivity.
Qed.
(* Without a model section nothing is filled; with one, a method without specification or without fields for bundles is refused. *)
Theorem C155_refused : forall fields c xl y method seed strict g,
  inject fields None xl y method seed strict g = Ok ([], g) /\
  (fields = None \/ (exists fs, fields = Some fs /\ forall slots, ~ receives fs slots) -> inject fields (Some c) xl y method seed strict g = Err BenchError) /\
  (forall fs, fields = Some fs -> c_factory c = true -> receives fs [("shared_bundle", [0]); ("head_bundles", [1; 2; 3])] -> inject fields (Some c) xl y method seed strict g = Err BenchError).
Proof using Type.
  intros fields c xl y method seed strict g; split; [reflexivity|split].
  - intros [->|(fs & -> & N)]; [reflexivity|]; unfold InjModel.inject; cbv zeta.
    destruct (existsb (String.eqb "model_bundle") fs) eqn:E1; [apply has_iff in E1; destruct (N _ (r_one fs E1))|apply has_not in E1].
    destruct (existsb (String.eqb "teacher_bundle") fs && _) eqn:E2; [apply both_yes in E2; destruct E2; destruct (N _ (r_teacher fs E1 H H0))|apply both_not in E2].
    destruct (existsb (String.eqb "model_bundle_1") fs && _) eqn:E3; [apply both_yes in E3; destruct E3; destruct (N _ (r_pair fs E1 E2 H H0))|apply both_not in E3].
    destruct (existsb (String.eqb "pretrain_bundle") fs && _) eqn:E4; [apply both_yes in E4; destruct E4; destruct (N _ (r_stages fs E1 E2 E3 H H0))|apply both_not in E4].
    destruct (existsb (String.eqb "shared_bundle") fs && _) eqn:E5; [apply both_yes in E5; destruct E5; destruct (N _ (r_heads fs E1 E2 E3 E4 H H0))|reflexivity].
  - intros fs -> Hf R; inversion R as [| | | |E1 E2 E3 E4 E5 E6]; subst.
    unfold InjModel.inject; cbv zeta; rewrite (proj2 (has_not _ _) E1), (proj2 (both_not _ _ _) E2), (proj2 (both_not _ _ _) E3), (proj2 (both_not _ _ _) E4), (proj2 (both_yes _ _ _) (conj E5 E6)), Hf; reflexivity.
Qed.
(* Each bundle on tensors, heads aside, is the one the bundle factory makes of the data for the number of distinct labels. *)
Theorem C155_bundles : forall fs c a d y method seed strict g ups g', c_factory c = false ->
  inject (Some fs) (Some c) (VTensor a d) y method seed strict g = Ok (ups, g') ->
  exists id k, c_id c = Some id /\ counts_distinct y k /\ (strict = true -> a_type a = F64 \/ a_type a = Floating) /\
    forall f bs b, In (f, bs) ups -> f <> "head_bundles" -> In b bs ->
      exists o ema g1 g2, (o = 0 \/ o = 1) /\ build id (c_backend c) (c_params c) (as_sample (VTensor a d)) (Some k) (seed + o) ema g1 = Ok (b, g2).
Proof using Type.
  intros fs c a d y method seed strict g ups g' Hf H; unfold InjModel.inject in H; cbv zeta in H.
  assert (M : forall o g b g', make_bundle c (VTensor a d) y method seed strict o None g = Ok (b, g') -> exists id, c_id c = Some id /\ (strict = true -> a_type a = F64 \/ a_type a = Floating) /\
    build id (c_backend c) (c_params c) (as_sample (VTensor a d)) (Some (num_classes y)) (seed + o) (ema_of c method) g = Ok (b, g')).
  { intros o g0 b g0' E; destruct (make_plain _ _ _ _ _ _ _ _ _ _ _ Hf E) as (id & E1 & E2 & E3); exists id; split; [exact E1|split; [|exact E3]]; intros Es; apply floating_iff, E2, Es. }
  assert (Two : forall f1 f2, (do ' (b0, g0) <- make_bundle c (VTensor a d) y method seed strict 0 None g; do ' (b1, g1) <- make_bundle c (VTensor a d) y method seed strict 1 None g0; Ok ([(f1, [b0]); (f2, [b1])], g1)) = Ok (ups, g') ->
    exists id k, c_id c = Some id /\ counts_distinct y k /\ (strict = true -> a_type a = F64 \/ a_type a = Floating) /\
    forall f bs b, In (f, bs) ups -> f <> "head_bundles" -> In b bs ->
      exists o ema g1 g2, (o = 0 \/ o = 1) /\ build id (c_backend c) (c_params c) (as_sample (VTensor a d)) (Some k) (seed + o) ema g1 = Ok (b, g2)).
  { clear H; intros f1 f2 H; apply bind_ok in H; destruct H as ((b0 & g0) & H0 & H); apply bind_ok in H; destruct H as ((b1 & g1) & H1 & [= <- <-]).
    destruct (M _ _ _ _ H0) as (id & Hi & Hs & B0); destruct (M _ _ _ _ H1) as (id' & Hi' & _ & B1).
    assert (id' = id) by congruence; subst id'.
    exists id, (num_classes y); split; [exact Hi|split; [apply num_classes_distinct|split; [exact Hs|]]].
    intros f bs b [[= <- <-]|[[= <- <-]|[]]] _ [<-|[]]; [exists 0|exists 1]; do 3 eexists; (split; [auto|eassumption]). }
  destruct (existsb (String.eqb "model_bundle") fs).
  { apply bind_ok in H; destruct H as ((b & g1) & Hb & [= <- <-]); destruct (M _ _ _ _ Hb) as (id & Hi & Hs & B0).
    exists id, (num_classes y); split; [exact Hi|split; [apply num_classes_distinct|split; [exact Hs|]]].
    intros f bs b0 [[= <- <-]|[]] _ [<-|[]]; exists 0; do 3 eexists; split; [auto|eassumption]. }
  destruct (existsb (String.eqb "teacher_bundle") fs && _); [eapply Two; exact H|].
  destruct (existsb (String.eqb "model_bundle_1") fs && _); [eapply Two; exact H|].
  destruct (existsb (String.eqb "pretrain_bundle") fs && _); [eapply Two; exact H|].
  destruct (existsb (String.eqb "shared_bundle") fs && _); [|discriminate]; rewrite Hf in H.
  apply bind_ok in H; destruct H as ((sh & g0) & H0 & H); apply bind_ok in H; destruct H as (u & Hu & H); apply bind_ok in H; destruct H as (s & Hs & H).
  apply bind_ok in H; destruct H as (r & Hr & H); apply bind_ok in H; destruct H as ((hs & g1) & Hh & [= <- <-]).
  destruct (M _ _ _ _ H0) as (id & Hi & Hst & B0).
  exists id, (num_classes y); split; [exact Hi|split; [apply num_classes_distinct|split; [exact Hst|]]].
  intros f bs b [[= <- <-]|[[= <- <-]|[]]] Nf Hb; [destruct Hb as [<-|[]]; exists 0; do 3 eexists; split; [auto|eassumption]|congruence].
Qed.

(* ----- TriNet ----- *)
Local Notation heads_of ups sh hs := (ups = [("shared_bundle", [sh]); ("head_bundles", hs)]).
Lemma trinet_split fs c a d n r y method seed strict g sh hs g' : c_factory c = false -> a_shape a = n :: r -> (1 <= n)%nat ->
  inject (Some fs) (Some c) (VTensor a d) y method seed strict g = Ok ([("shared_bundle", [sh]); ("head_bundles", hs)], g') ->
  exists id fl ids rep g1 g0, c_id c = Some id /\
    build id (c_backend c) (c_params c) (Tensor (n :: r) fl (map Qfloor (a_vals a))) (Some (num_classes y)) seed (ema_of c method) g1 = Ok (sh, g0) /\
    reply_of id (b_net W sh) (Tensor (1%nat :: r) fl ids) = Ok rep /\ (forall i, In i ids -> In i (map Qfloor (a_vals a))) /\
    forall h, In h hs -> exists fl o g2 g3, build (head_id c) (Some "torch") (c_params c) (Tensor (head_sample rep) fl []) (Some (num_classes y)) (seed + o) false g2 = Ok (h, g3).
Proof.
  intros Hf Ha Hn H; unfold InjModel.inject in H; cbv zeta in H.
  assert (Two : forall f1 f2, f1 <> "shared_bundle" -> (do ' (b0, g0) <- make_bundle c (VTensor a d) y method seed strict 0 None g; do ' (b1, g1) <- make_bundle c (VTensor a d) y method seed strict 1 None g0; Ok ([(f1, [b0]); (f2, [b1])], g1)) <> Ok ([("shared_bundle", [sh]); ("head_bundles", hs)], g')).
  { intros f1 f2 N E; apply bind_ok in E; destruct E as ((b0 & g0) & H0 & E); apply bind_ok in E; destruct E as ((b1 & g1) & H1 & E); congruence. }
  destruct (existsb (String.eqb "model_bundle") fs); [apply bind_ok in H; destruct H as ((b & g1) & _ & [=])|].
  destruct (existsb (String.eqb "teacher_bundle") fs && _); [exfalso; eapply Two; [|exact H]; discriminate|].
  destruct (existsb (String.eqb "model_bundle_1") fs && _); [exfalso; eapply Two; [|exact H]; discriminate|].
  destruct (existsb (String.eqb "pretrain_bundle") fs && _); [exfalso; eapply Two; [|exact H]; discriminate|].
  destruct (existsb (String.eqb "shared_bundle") fs && _); [|discriminate]; rewrite Hf in H.
  apply bind_ok in H; destruct H as ((sh' & g0) & H0 & H); apply bind_ok in H; destruct H as (u & Hu & H); apply bind_ok in H; destruct H as (s & Hs & H).
  apply bind_ok in H; destruct H as (rep & Hr & H); apply bind_ok in H; destruct H as ((hs' & g1) & Hh & H).
  assert (E : sh' = sh /\ hs' = hs) by (inversion H; auto); destruct E as [-> ->]; clear H.
  destruct (make_plain _ _ _ _ _ _ _ _ _ _ _ Hf H0) as (id & Hi & _ & B0).
  rewrite Hi in Hr; cbn [as_sample] in B0; rewrite Ha in B0; rewrite Z.add_0_r in B0.
  assert (S1 : exists ids, as_sample s = Tensor (1%nat :: r) (floating (a_type a)) ids /\ forall i, In i ids -> In i (map Qfloor (a_vals a))).
  { unfold first_row in Hs; rewrite Ha in Hs; destruct (Nat.ltb_spec 1 n).
    - injection Hs as <-; cbn [as_sample]; eexists; split; [reflexivity|]; intros i Hi'; apply in_map_iff in Hi'; destruct Hi' as (q & <- & Hq).
      apply in_map; rewrite <- (firstn_skipn (prod r) (a_vals a)); apply in_or_app; left; exact Hq.
    - injection Hs as <-; cbn [as_sample]; rewrite Ha; replace n with 1%nat by lia; eexists; split; [reflexivity|auto]. }
  destruct S1 as (ids & Es & Hids); rewrite Es in Hr.
  exists id, (floating (a_type a)), ids, rep, g, g0; split; [exact Hi|split; [exact B0|split; [exact Hr|split; [exact Hids|]]]].
  destruct (heads_weights _ _ _ _ _ _ _ Hf _ _ _ Hh) as (_ & R2 & _).
  intros h Hin; clear -R2 Hin Hf; induction R2 as [|b o bs os Hb _ IH]; [destruct Hin|]; destruct Hin as [<-|Hin]; [|exact (IH Hin)].
  destruct Hb as (g2 & g3 & Hb); unfold InjModel.make_bundle in Hb; rewrite Hf in Hb; cbv zeta in Hb; cbn [bind] in Hb.
  apply bind_ok in Hb; destruct Hb as (u & _ & Hb); cbn [as_sample a_shape a_vals map] in Hb; eauto 6.
Qed.
(* TriNet on rows of numbers: the heads take what the shared network gives, for every batch, with one logit per class. *)
Theorem C155_trinet : forall force fs c a d n w y method seed strict g sh hs g' k,
  c_factory c = false -> c_id c = Some (dense_id force) -> a_shape a = [n; w] -> (1 <= n)%nat -> counts_distinct y k ->
  inject (Some fs) (Some c) (VTensor a d) y method seed strict g = Ok ([("shared_bundle", [sh]); ("head_bundles", hs)], g') ->
  length hs = 3%nat /\
  forall m fl ids, exists f, shared_features (dense_id force) (b_net W sh) (Tensor [m; w] fl ids) = Ok f /\ forall h, In h hs -> head_logits (b_net W h) f = Ok [m; Z.to_nat k].
Proof using Type.
  intros force fs c a d n w y method seed strict g sh hs g' k Hf Hid Ha Hn Hk H.
  assert (Hk' : k = num_classes y) by (eapply counts_unique; [exact Hk|apply num_classes_distinct]); subst k.
  split.
  { destruct (C155_seeds fs c _ y method seed strict g _ g' Hf H) as ((slots & R & F) & _).
    inversion F as [|? [f1 o1] ? ? [E1 _] F']; subst; inversion F' as [|? [f2 o2] ? ? [E2 G] F'']; subst; inversion F''; subst; cbn in E1, E2, G; subst.
    inversion R; subst; inversion G as [|? ? ? ? _ G1]; subst; inversion G1 as [|? ? ? ? _ G2]; subst; inversion G2 as [|? ? ? ? _ G3]; subst; inversion G3; reflexivity. }
  destruct (trinet_split fs c a d n [w] y method seed strict g sh hs g' Hf Ha Hn H) as (id & fl0 & ids0 & rep & g1 & g0 & Hi & B & R & _ & Hd).
  assert (id = dense_id force) by congruence; subst id.
  destruct (C154_mlp_forward seeded draw pretrained force _ _ n [w] _ _ _ _ _ _ _ _ Hn ltac:(discriminate) B) as (h0 & _ & _ & F).
  replace (row_size [w]) with w in F by (cbn; lia).
  assert (Hni : String.eqb (dense_id force) "image_cnn" || String.eqb (dense_id force) "lstm_scratch" = false) by (destruct force; reflexivity).
  assert (Hnet : match b_net W sh with Recurrent _ _ _ _ _ _ => False | _ => True end).
  { apply build_iff in B; destruct B as (_ & _ & c' & nn & [= <-] & _ & B & -> & _); cbn [b_net]; rewrite dense_dispatch in B; unfold build_mlp in B.
    apply bind_ok in B; destruct B as (? & _ & B); apply bind_ok in B; destruct B as (? & _ & B); apply bind_ok in B; destruct B as ((? & ?) & _ & B); apply bind_ok in B; destruct B as (? & _ & [= <-]).
    destruct (p_features (c_params c)); exact I. }
  set (K := Z.to_nat (num_classes y)) in *.
  set (fw := last (map Z.to_nat h0) w) in *.
  assert (FW : forall m fl ids, forward (b_net W sh) (Tensor [m; w] fl ids) = Ok {| logits := [m; K]; feat := if p_features (c_params c) then Some [m; fw] else None |}).
  { intros m fl ids; apply F; exists [m]; cbn; split; [reflexivity|split; reflexivity]. }
  set (width := if p_features (c_params c) then fw else K).
  assert (Hr : head_sample rep = [1%nat; width]).
  { unfold reply_of in R; rewrite (FW 1%nat fl0 ids0) in R; cbn [bind feat logits] in R; rewrite Hni in R; unfold width; destruct (p_features (c_params c)); injection R as <-; reflexivity. }
  intros m fl ids; exists [m; width]; split.
  - unfold shared_features; destruct (b_net W sh) eqn:En; try destruct Hnet;
      (unfold reply_of; rewrite FW; cbn [bind feat logits]; rewrite Hni; unfold width; destruct (p_features (c_params c)); reflexivity).
  - intros h Hh; destruct (Hd h Hh) as (fl1 & o & g2 & g3 & Bh); rewrite Hr in Bh.
    assert (Eh : head_id c = dense_id force) by (unfold head_id; rewrite Hid; destruct force; reflexivity); rewrite Eh in Bh.
    destruct (C154_mlp_forward seeded draw pretrained force _ _ 1%nat [width] _ _ _ _ _ _ _ _ (le_n 1) ltac:(discriminate) Bh) as (h1 & _ & _ & F1).
    replace (row_size [width]) with width in F1 by (cbn; lia).
    unfold head_logits; rewrite (proj2 (F1 [m; width] true [] {| logits := [m; K]; feat := if p_features (c_params c) then Some [m; last (map Z.to_nat h1) width] else None |})); [reflexivity|].
    exists [m]; split; [reflexivity|split; reflexivity].
Qed.
(* TriNet on images: the bundles are made, but the shared network answers with a pair, which TriNet refuses on every batch. *)
Theorem C155_trinet_images_refuted : forall fs c a d n ch h w y method seed strict g sh hs g',
  c_factory c = false -> c_id c = Some "image_cnn" -> a_shape a = [n; ch; h; w] -> (1 <= n)%nat -> holds (fun k => 1 <= k)%nat (p_kernel (c_params c)) ->
  inject (Some fs) (Some c) (VTensor a d) y method seed strict g = Ok ([("shared_bundle", [sh]); ("head_bundles", hs)], g') ->
  forall m h' w' fl ids, (1 <= h')%nat -> (1 <= w')%nat -> shared_features "image_cnn" (b_net W sh) (Tensor [m; ch; h'; w'] fl ids) = Err InductiveValidationError.
Proof using Type.
  intros fs c a d n ch h w y method seed strict g sh hs g' Hf Hid Ha Hn Hk H m h' w' fl ids Hh Hw.
  destruct (trinet_split fs c a d n [ch; h; w] y method seed strict g sh hs g' Hf Ha Hn H) as (id & fl0 & ids0 & rep & g1 & g0 & Hi & B & _).
  assert (id = "image_cnn") by congruence; subst id.
  pose proof (C154_image_forward seeded draw pretrained _ _ n ch h w _ _ _ _ _ _ _ _ Hn Hk B m h' w' fl ids Hh Hw) as F.
  unfold shared_features; destruct (b_net W sh) eqn:En; try solve [unfold reply_of; rewrite F; reflexivity].
  exfalso; apply build_iff in B; destruct B as (_ & _ & c' & nn & [= <-] & _ & B & E & _); subst sh; cbn [b_net] in En; subst nn.
  rewrite image_dispatch in B; unfold build_image in B; cbv zeta in B.
  apply bind_ok in B; destruct B as (? & _ & B); apply bind_ok in B; destruct B as ((? & ?) & _ & B); apply bind_ok in B; destruct B as (? & _ & B); apply bind_ok in B; destruct B as (? & _ & B); discriminate.
Qed.
(* TriNet on words: the heads are made for one input per class, while TriNet feeds them the hidden state of the LSTM. *)
Theorem C155_trinet_words_refuted : forall fs c a d n l y method seed strict g sh hs g' k w,
  c_factory c = false -> c_id c = Some "lstm_scratch" -> a_shape a = [n; l] -> (1 <= n)%nat -> 0 < p_vocab (c_params c) -> counts_distinct y k ->
  inject (Some fs) (Some c) (VTensor a d) y method seed strict g = Ok ([("shared_bundle", [sh]); ("head_bundles", hs)], g') ->
  width_asked (c_params c) w -> k <> (if p_both (c_params c) then 2 * w else w) ->
  forall m l' fl ids f h, shared_features "lstm_scratch" (b_net W sh) (Tensor [m; l'] fl ids) = Ok f -> In h hs -> forall o, head_logits (b_net W h) f <> Ok o.
Proof using Type.
  intros fs c a d n l y method seed strict g sh hs g' k w Hf Hid Ha Hn Hv Hk H Hw Hkw m l' fl ids f h Hs Hh o Ho.
  assert (Hk' : k = num_classes y) by (eapply counts_unique; [exact Hk|apply num_classes_distinct]); subst k.
  destruct (trinet_split fs c a d n [l] y method seed strict g sh hs g' Hf Ha Hn H) as (id & fl0 & ids0 & rep & g1 & g0 & Hi & B & R & _ & Hd).
  assert (id = "lstm_scratch") by congruence; subst id.
  apply build_iff in B; destruct B as (_ & _ & c' & nn & [= <-] & Hc & B & E & _); subst sh; cbn [b_net] in R, Hs.
  rewrite lstm_dispatch in B; destruct (lstm_net _ _ _ _ _ _ _ Hn B) as (v & w' & _ & _ & Hw' & Hw0 & ->).
  assert (w' = w) by (inversion Hw; inversion Hw'; congruence); subst w'.
  cbn [shared_features] in Hs; apply bind_ok in Hs; destruct Hs as (out & Hl & Hs); apply lstm_ids in Hl; destruct Hl as (_ & _ & _ & Ef); rewrite Ef in Hs; injection Hs as <-.
  unfold reply_of in R; apply bind_ok in R; destruct R as (out' & Hl & R); cbn [forward] in Hl; apply lstm_ids in Hl; destruct Hl as (_ & _ & El & Ef').
  assert (Hr : head_sample rep = [1%nat; Z.to_nat (num_classes y)]).
  { destruct (feat out') as [f0|]; [destruct (String.eqb "lstm_scratch" "image_cnn" || String.eqb "lstm_scratch" "lstm_scratch") eqn:E; [|discriminate]|]; injection R as <-; cbn [head_sample]; exact El. }
  destruct (Hd h Hh) as (fl1 & off & g2 & g3 & Bh); rewrite Hr in Bh.
  assert (Eh : head_id c = dense_id true) by (unfold head_id; rewrite Hid; reflexivity); rewrite Eh in Bh.
  destruct (C154_mlp_forward seeded draw pretrained true _ _ 1%nat [Z.to_nat (num_classes y)] _ _ _ _ _ _ _ _ (le_n 1) ltac:(discriminate) Bh) as (h1 & _ & _ & F1).
  unfold head_logits in Ho; apply bind_ok in Ho; destruct Ho as (oo & Ho & _); apply F1 in Ho; destruct Ho as (pre & Ep & _).
  replace (row_size [Z.to_nat (num_classes y)]) with (Z.to_nat (num_classes y)) in Ep by (cbn; lia).
  apply (app_inj_tail [m] pre) in Ep; destruct Ep as [_ Ep]; destruct (p_both (c_params c)); lia.
Qed.
End Bundles.

(* ----- concrete cases ----- *)
Definition jx_arr (t : dtype) (s : list nat) (v : list Q) : arr := {| a_type := t; a_shape := s; a_vals := v |}.
Definition jx_as (v : value) : result arr := match v with VSeq _ => Ok (jx_arr F64 [2]%nat [1; 2]%Q) | _ => Err TypeError end.
Definition jx_data : value := VDict [("x", VArray (jx_arr U8 [2; 2]%nat [0; 51; 255; 102]%Q)); ("mask", VNone); ("more", VDict [("w", VTensor (jx_arr F64 [2]%nat [1; 2]%Q) "cuda"); ("z", VSeq [])])].
Example C155_to_torch_example : exists v, smart jx_as (Some "cuda") jx_data = Ok v /\ at_path ["more"; "w"] v = Some (VTensor (jx_arr F64 [2]%nat [1; 2]%Q) "cuda") /\
  is_container jx_data = false /\ is_container v = true /\ device_of v = Some "cuda".
Proof. eexists; split; [reflexivity|repeat split]. Qed.
Example C155_uint8_example : a_type (jx_arr U8 [1]%nat [255]%Q) = U8 /\ exists q, In q (a_vals (jx_arr U8 [1]%nat [255]%Q)) /\ (~ q == 0)%Q.
Proof. split; [reflexivity|exists 255%Q; split; [left; reflexivity|discriminate]]. Qed.
Example C155_strict_example : strict_inputs true (VTensor (jx_arr Floating [3; 2]%nat []) "cpu") (VTensor (jx_arr Integer [3]%nat []) "cpu") [VNone] = Ok tt /\
  strict_inputs true (VTensor (jx_arr Floating [3; 2]%nat []) "cpu") (VTensor (jx_arr Integer [4]%nat []) "cpu") [VNone] = Err BenchError /\
  strict_inputs true (VTensor (jx_arr Integer [3; 2]%nat []) "cpu") (VTensor (jx_arr Integer [3]%nat []) "cpu") [] = Err BenchError.
Proof. repeat split. Qed.
Definition jx_in : inputs := {| i_l := VArray (jx_arr F64 [2; 1]%nat [1; 2]%Q); i_u := VNone; i_w := VArray (jx_arr U8 [1; 1]%nat [255]%Q); i_s := VNone; i_s1 := VNone |}.
Example C155_auto_example : exists i, convert jx_as true (Some "cpu") jx_in = Ok i /\ is_container (i_l jx_in) = false /\ is_container (i_l i) = true /\ auto_to_torch false None None (Some "torch") = true.
Proof. eexists; split; [reflexivity|repeat split]. Qed.
Definition jx_select (v : value) (idx : list Z) : result value := match v with VTensor a d => Ok (VTensor (jx_arr (a_type a) (length idx :: tl (a_shape a)) []) d) | _ => Ok v end.
Definition jx_x : value := VTensor (jx_arr Floating [4; 3]%nat []) "cpu".
Example C155_views_example : exists l, build_views jx_as jx_select [("b", jx_x)] [0; 2] [1] jx_x false = Ok l /\
  views_payload jx_as jx_select "pi_model" (Some [("b", jx_x)]) [0; 2] [1] jx_x false jx_x = Ok (PViews l) /\
  views_payload jx_as jx_select "comatch" (Some [("b", jx_x)]) [0; 2] [1] jx_x false jx_x = Ok (PSecond jx_x).
Proof. eexists; split; [reflexivity|split; reflexivity]. Qed.
Definition jx_inject fs c x y method seed g := inject jx_as jx_select Z Z (fun s => s * 7 + 1) (fun _ g => (g, g + 1)) (fun _ _ _ _ => Err OptionalDependencyError)
  (fun g => Ok ({| b_net := Plain []; b_weights := g; b_ema := None |}, g + 1)) (Some fs) (Some c) x y method seed true g.
Definition jx_cfg (f : bool) (id : string) (ps : params) : model_cfg := {| c_factory := f; c_id := Some id; c_backend := None; c_params := ps; c_ema := None |}.
Example C155_seeds_example : exists b1 b2 g, jx_inject ["model_bundle_1"; "model_bundle_2"] (jx_cfg false "mlp" bx) jx_x [0; 1; 0] "mean_teacher" 5 9 = Ok ([("model_bundle_1", [b1]); ("model_bundle_2", [b2])], g) /\
  b_weights Z b1 = 36 /\ b_weights Z b2 = 43 /\ b_ema Z b2 = Some 43.
Proof. do 3 eexists; split; [reflexivity|repeat split]. Qed.
Example C155_factory_example : exists b b', jx_inject ["model_bundle"] (jx_cfg true "mlp" bx) jx_x [0; 1] "pi_model" 5 9 = Ok ([("model_bundle", [b])], 10) /\
  jx_inject ["model_bundle"] (jx_cfg true "mlp" bx) jx_x [0; 1] "pi_model" 5 8 = Ok ([("model_bundle", [b'])], 9) /\ b <> b'.
Proof. do 2 eexists; split; [reflexivity|split; [reflexivity|discriminate]]. Qed.
Example C155_missing_class_example : counts_distinct [0; 2; 2] 2 /\ ~ In 1 [0; 2; 2].
Proof. split; [exact (num_classes_distinct [0; 2; 2])|intros [E|[E|[E|[]]]]; discriminate]. Qed.
Example C155_refused_example : jx_inject ["classifier_id"] (jx_cfg false "mlp" bx) jx_x [0; 1] "co_training" 5 9 = Err BenchError.
Proof. reflexivity. Qed.
Definition jx_tri := ["shared_bundle"; "head_bundles"].
Example C155_trinet_example : exists sh h1 h2 h3 g, jx_inject jx_tri (jx_cfg false "mlp" bx) jx_x [0; 1; 0] "trinet" 5 9 = Ok ([("shared_bundle", [sh]); ("head_bundles", [h1; h2; h3])], g) /\
  b_weights Z h3 = 57 /\ shared_features "mlp" (b_net Z sh) (Tensor [7; 3]%nat true []) = Ok [7; 3]%nat /\ head_logits (b_net Z h2) [7; 3]%nat = Ok [7; 2]%nat.
Proof. do 5 eexists; split; [reflexivity|repeat split]. Qed.
Example C155_images_example : exists sh hs g, jx_inject jx_tri (jx_cfg false "image_cnn" bx) (VTensor (jx_arr Floating [4; 3; 8; 8]%nat []) "cpu") [0; 1] "trinet" 5 9 = Ok ([("shared_bundle", [sh]); ("head_bundles", hs)], g).
Proof. do 3 eexists; reflexivity. Qed.
Example C155_words_example : exists sh h1 hs g, jx_inject jx_tri (jx_cfg false "lstm_scratch" bx_words) (VTensor (jx_arr Floating [2; 2]%nat [1; 2; 0; 3]%Q) "cpu") [0; 1] "trinet" 5 9 = Ok ([("shared_bundle", [sh]); ("head_bundles", h1 :: hs)], g) /\
  shared_features "lstm_scratch" (b_net Z sh) (Tensor [2; 2]%nat true [1; 2; 0; 3]) = Ok [2; 4]%nat /\ head_logits (b_net Z h1) [2; 4]%nat = Err RuntimeError.
Proof. do 4 eexists; split; [reflexivity|split; reflexivity]. Qed.

Print Assumptions C155_container.
Print Assumptions C155_to_torch.
Print Assumptions C155_uint8_refuted.
Print Assumptions C155_strict.
Print Assumptions C155_auto.
Print Assumptions C155_when_auto.
Print Assumptions C155_views.
Print Assumptions C155_views_entry.
Print Assumptions C155_classes.
Print Assumptions C155_missing_class_refuted.
Print Assumptions C155_seeds.
Print Assumptions C155_factory_refuted.
Print Assumptions C155_refused.
Print Assumptions C155_bundles.
Print Assumptions C155_trinet.
Print Assumptions C155_trinet_images_refuted.
Print Assumptions C155_trinet_words_refuted.
