(* C172: the torchvision data provider. *)
From Coq Require Import String Ascii Lia.
From Verif Require Import Prelude PyValue RegModel OmlModel OmlSpec OmlProofs ProvModel TvdModel TvdSpec TvdProofs.
Local Open Scope string_scope.
Local Open Scope Z_scope.
Local Open Scope list_scope.
Local Notation length := List.length.

Section Props.
Variable o : Oracle.
(* the reference names a class, with white space around it or not; the canonical URI names it again; the settings are those of the options *)
Theorem C172_reference : forall b c b' options options', blank b -> clean c -> blank b' ->
  let id := resolve o (b ++ c ++ b') options in
  t_id id = c /\ t_uri id = ("torchvision:" ++ str c)%string /\ t_id (resolve o c options') = c /\ t_uri (resolve o c options') = t_uri id /\
  (forall k, (k = "max_train_samples" -> t_max_train id = none_get options k) /\ (k = "max_test_samples" -> t_max_test id = none_get options k) /\ (k = "seed" -> t_seed id = none_get options k) /\
             (k = "class_filter" -> t_filter id = match dget options k with None | Some PNone => None | Some (PList l) => Some l | Some v => Some [v] end) /\ (k = "task" -> t_task id = py_str o (get_else options k (PStr "classification")))).
Proof.
  intros b c b' options options' Hb Hc Hb'. unfold resolve. cbv zeta. cbn [t_id t_uri t_max_train t_max_test t_seed t_filter t_task]. rewrite (strip_around b c b' (blank_b _ Hb) (clean_b _ Hc) (blank_b _ Hb')), (strip_clean c (clean_b _ Hc)).
  do 4 (split; [reflexivity|]). intros k. repeat split; intros ->; try reflexivity. unfold normalize_filter, none_get. destruct (dget options "class_filter") as [[]|]; reflexivity.
Qed.

Context {A : Type}.
(* the two parts: asked for with train=True and train=False; only a TypeError of one of these calls leads to split="train" and split="test" *)
Theorem C172_parts : forall (mk : @maker A) r calls, make_train_test mk = (r, calls) <->
  (built mk (ByTrain true) (ByTrain false) r calls /\ r <> Err TypeError) \/
  exists first second, built mk (ByTrain true) (ByTrain false) (Err TypeError) first /\ built mk (BySplit "train") (BySplit "test") r second /\ calls = first ++ second.
Proof.
  intros mk r calls. unfold make_train_test. destruct (two mk (ByTrain true) (ByTrain false)) as [r1 c1] eqn:E1. destruct (two mk (BySplit "train") (BySplit "test")) as [r2 c2] eqn:E2.
  assert (F1 : forall r c, built mk (ByTrain true) (ByTrain false) r c -> r = r1 /\ c = c1) by (intros r' c' H; apply two_built in H; split; congruence).
  assert (F2 : forall r c, built mk (BySplit "train") (BySplit "test") r c -> r = r2 /\ c = c2) by (intros r' c' H; apply two_built in H; split; congruence).
  apply two_built in E1, E2. split.
  - destruct r1 as [d|e]; [intros [= <- <-]; left; split; [exact E1|discriminate]|]. destruct e; try (intros [= <- <-]; left; split; [exact E1|discriminate]). intros [= <- <-]. right. eauto.
  - intros [[H N]|(f & s & H1 & H2 & ->)].
    + destruct (F1 _ _ H) as [-> ->]. destruct r1 as [d|e]; [reflexivity|]. destruct e; congruence.
    + destruct (F1 _ _ H1) as [<- ->]. destruct (F2 _ _ H2) as [-> ->]. reflexivity.
Qed.

(* the samples of a part, and the first item that cannot be read *)
Theorem C172_samples : forall (d : @dataset A),
  (forall x y, samples d x y <-> exists fuel, extract_xy fuel d = Ok (x, y)) /\
  (forall x y x' y', samples d x y -> samples d x' y' -> x = x' /\ y = y') /\
  (forall n e, unreadable d n e -> forall fuel, (n < fuel)%nat -> extract_xy fuel d = Err e).
Proof. intros d. split; [intros; apply extract_ok|]. split; [intros; eapply samples_fun; eassumption|apply extract_bad]. Qed.

(* loading: the parts of the named class, every part in full before the filter and the limits; without these the samples come as they are *)
Theorem C172_load : forall shuffle (lib : text -> option (@maker A)) id mk tr te calls x y x2 y2 cf mt me seed,
  lib (t_id id) = Some mk -> make_train_test mk = (Ok (tr, te), calls) -> samples tr x y -> samples te x2 y2 ->
  exists n, forall fuel, (n <= fuel)%nat ->
    load_tv shuffle (Some lib) fuel id cf mt me seed = (load_splits shuffle cf mt me seed (x, y) (Some (x2, y2)), calls) /\
    (cf = None -> mt = None -> me = None -> load_tv shuffle (Some lib) fuel id cf mt me seed = (Ok ((x, y), Some (x2, y2)), calls)).
Proof.
  intros shuffle lib id mk tr te calls x y x2 y2 cf mt me seed HL HM H1 H2. destruct (extract_more tr x y H1) as [n1 E1]. destruct (extract_more te x2 y2 H2) as [n2 E2]. exists (n1 + n2)%nat. intros fuel Hf.
  unfold load_tv. rewrite HL, HM. cbn [bind]. rewrite E1, E2 by lia. cbn [bind]. split; [reflexivity|]. intros -> -> ->. reflexivity.
Qed.
(* what cannot be loaded: no torchvision, no such class, a constructor that fails, an item that cannot be read *)
Theorem C172_refused : forall shuffle (lib : text -> option (@maker A)) fuel id cf mt me seed,
  load_tv (A := A) shuffle None fuel id cf mt me seed = (Err OptionalDependencyError, []) /\
  (lib (t_id id) = None -> load_tv shuffle (Some lib) fuel id cf mt me seed = (Err AttributeError, [])) /\
  (forall mk e calls, lib (t_id id) = Some mk -> make_train_test mk = (Err e, calls) -> load_tv shuffle (Some lib) fuel id cf mt me seed = (Err e, calls)) /\
  (forall mk tr te calls n e, lib (t_id id) = Some mk -> make_train_test mk = (Ok (tr, te), calls) -> (n < fuel)%nat ->
     unreadable tr n e \/ (exists x y, extract_xy fuel tr = Ok (x, y)) /\ unreadable te n e -> load_tv shuffle (Some lib) fuel id cf mt me seed = (Err e, calls)).
Proof.
  intros shuffle lib fuel id cf mt me seed. unfold load_tv. split; [reflexivity|]. split; [intros ->; reflexivity|]. split; [intros mk e calls -> ->; reflexivity|].
  intros mk tr te calls n e -> -> Hf [H|[(x & y & H1) H2]]; cbn [bind]; [rewrite (extract_bad _ _ _ H fuel Hf); reflexivity|]. rewrite H1. cbn [bind]. rewrite (extract_bad _ _ _ H2 fuel Hf). reflexivity.
Qed.

(* Finding: an IndexError raised while an item is read ends the data silently: the items after it are lost without an error *)
Theorem C172_silent_end_refuted : forall (a b : A), exists d n,
  (forall i, (i < n)%nat -> i <> 1%nat -> exists s, d_item d i = Ok s) /\ d_item d 1 = Err IndexError /\ n = 3%nat /\ extract_xy 5 d = Ok ([a], [0]) /\ d_item d 2 = Ok (Pair b 1).
Proof.
  intros a b. exists {| d_data := None; d_targets := None; d_item := fun i => match i with 0%nat => Ok (Pair a 0) | 2%nat => Ok (Pair b 1) | _ => Err IndexError end |}, 3%nat. split; [|repeat split].
  intros [|[|[|i]]] Hi Hn; [eexists; reflexivity|congruence|eexists; reflexivity|lia].
Qed.
(* Finding: a TypeError raised inside the test part of a class with train= is answered by asking for split=, which that class does not know; the caller sees that error instead *)
Theorem C172_hidden_error_refuted : forall (d : @dataset A) e, exists mk,
  mk (ByTrain true) = Ok d /\ mk (ByTrain false) = Err TypeError /\ (forall s, mk (BySplit s) = Err e) /\ make_train_test mk = (Err e, [ByTrain true; ByTrain false; BySplit "train"]).
Proof. intros d e. exists (fun k => match k with ByTrain true => Ok d | ByTrain false => Err TypeError | BySplit _ => Err e end). repeat split. Qed.
(* Finding: a class that needs both keywords, or a split by another name, cannot be loaded *)
Theorem C172_both_keywords_refuted : forall (mk : @maker A) e, (forall b, mk (ByTrain b) = Err TypeError) -> mk (BySplit "train") = Err e -> forall shuffle lib fuel id cf mt me seed, lib (t_id id) = Some mk ->
  load_tv shuffle (Some lib) fuel id cf mt me seed = (Err e, [ByTrain true; BySplit "train"]).
Proof. intros mk e H1 H2 shuffle lib fuel id cf mt me seed HL. unfold load_tv, make_train_test, two. rewrite HL, H1, H2. reflexivity. Qed.
End Props.

(* instances: a class with train= and fields; a class with split= and items *)
Definition c172_fields (l : list Z) : @dataset Z := {| d_data := Some l; d_targets := Some l; d_item := fun _ => Err KeyError |}.
Definition c172_items (l : list Z) : @dataset Z := {| d_data := Some l; d_targets := None; d_item := fun i => match nth_error l i with Some z => Ok (Pair z (z + 1)) | None => Err IndexError end |}.
Definition c172_mk (k : keyword) : result (@dataset Z) := match k with ByTrain _ => Err TypeError | BySplit s => if String.eqb s "train" then Ok (c172_items [4; 5]) else Ok (c172_fields [6]) end.
Example C172_applies : make_train_test c172_mk = (Ok (c172_items [4; 5], c172_fields [6]), [ByTrain true; BySplit "train"; BySplit "test"]) /\ samples (c172_items [4; 5]) [4; 5] [5; 6] /\ samples (c172_fields [6]) [6] [6] /\
  unreadable {| d_data := None; d_targets := None; d_item := fun i => match i with 0%nat => Ok (Pair 1 2) | _ => Err KeyError end |} 1 KeyError /\ clean (txt "CIFAR10") /\ blank (txt " ").
Proof.
  split; [reflexivity|]. split; [apply (samples_items _ 2); auto; intros [|[|i]] Hi; [eexists; eexists; repeat split|eexists; eexists; repeat split|lia]|]. split; [apply samples_fields; reflexivity|].
  split; [apply unreadable_item; cbn; auto; [intros [|i] Hi; [eauto|lia]|discriminate]|]. split; [|intros c [<-|[]]; apply is_space_spec; reflexivity].
  intros a r. split; intros E; apply not_space_spec; [injection E as <- _; reflexivity|]. change (txt "CIFAR10") with (txt "CIFAR1" ++ ["0"%char]) in E. apply app_inj_tail in E. destruct E as [_ <-]. reflexivity.
Qed.
Print Assumptions C172_reference.
Print Assumptions C172_parts.
Print Assumptions C172_samples.
Print Assumptions C172_load.
Print Assumptions C172_refused.
Print Assumptions C172_silent_end_refuted.
Print Assumptions C172_hidden_error_refuted.
Print Assumptions C172_both_keywords_refuted.
