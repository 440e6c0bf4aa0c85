(* Proofs for C148: the index entries of meta. *)
From Coq Require Import String Lia ZifyBool ZifyNat.
From Verif Require Import Prelude AdaptModel AdaptSpec AdaptProofs AdaptTorchProofs.
Local Open Scope string_scope.
Local Open Scope Z_scope.
Local Open Scope list_scope.
Local Notation length := List.length.

Section Meta.
Variable np_device : option device.
Variable as_long : nat -> nat.
Variable as_tensor : val -> device -> result val.
Notation mv := (moved as_long as_tensor).

Lemma store_keys s v items : map fst (store s v items) = map fst items.
Proof. induction items as [|(k, w) r IH]; [reflexivity|]. cbn [store]. destruct (key_is s k); cbn [map fst]; [reflexivity|now rewrite IH]. Qed.
Lemma store_other s v items k w : k <> KStr s -> In (k, w) items -> In (k, w) (store s v items).
Proof.
  intros HK. induction items as [|(k0, w0) r IH]; [intros []|]. cbn [store]. destruct (key_is s k0) eqn:E.
  - apply key_is_spec in E as ->. intros [[= <- _]|H]; [congruence|now right].
  - intros [H|H]; [now left|right; now apply IH].
Qed.
Lemma store_same s v items w : In (KStr s, w) items -> In (KStr s, v) (store s v items).
Proof.
  induction items as [|(k0, w0) r IH]; [intros []|]. cbn [store]. destruct (key_is s k0) eqn:E.
  - apply key_is_spec in E as ->. intros _. now left.
  - intros [[= -> _]|H]; [cbn [key_is] in E; rewrite String.eqb_refl in E; discriminate|right; now apply IH].
Qed.
Lemma lookup_in s items v : NoDup (map fst items) -> In (KStr s, v) items -> lookup s items = Some v.
Proof.
  intros ND H. apply in_split in H as (b & a & ->). apply lookup_some. exists b, a. split; [reflexivity|]. intros w Hw. rewrite map_app in ND. cbn [map fst] in ND. apply NoDup_remove_2 in ND. apply ND. apply in_app_iff. left. apply in_map_iff. now exists (KStr s, w).
Qed.
Lemma move_keys_spec dv keys : NoDup keys -> forall items items', NoDup (map fst items) -> move_keys as_long as_tensor keys dv items = Ok items' ->
  map fst items' = map fst items /\ forall k v, In (k, v) items -> exists v', In (k, v') items' /\ ((forall s, In s keys -> k <> KStr s) -> v' = v) /\ (forall s, In s keys -> k = KStr s -> mv v dv = Ok v').
Proof.
  induction keys as [|s0 keys IH]; intros NK items items' ND H; cbn [move_keys] in H.
  - injection H as <-. split; [reflexivity|]. intros k v Hv. exists v. split; [exact Hv|]. split; [reflexivity|]. intros s [].
  - inversion NK as [|? ? HN NK']; subst. destruct (lookup s0 items) as [v0|] eqn:EL.
    + apply bind_ok in H as (v1 & EM & H). apply IH in H as (HK & HI); [|exact NK'|now rewrite store_keys]. split; [rewrite HK; apply store_keys|].
      intros k v Hv. assert (HC : k = KStr s0 \/ k <> KStr s0) by (destruct (key_is s0 k) eqn:E; [left; now apply key_is_spec|right; intros ->; cbn [key_is] in E; rewrite String.eqb_refl in E; discriminate]).
      destruct HC as [->|HC].
      * rewrite (lookup_in _ _ _ ND Hv) in EL. injection EL as ->. destruct (HI (KStr s0) v1) as (v' & Hv' & H1 & H2); [eapply store_same; exact Hv|]. exists v'. split; [exact Hv'|]. rewrite H1; [|intros s Hs [= <-]; contradiction]. split; [intros HH; destruct (HH s0); [now left|reflexivity]|]. intros s _ _. exact EM.
      * destruct (HI k v) as (v' & Hv' & H1 & H2); [now apply store_other|]. exists v'. split; [exact Hv'|]. split; [intros HH; apply H1; intros s Hs; apply HH; now right|]. intros s [<-|Hs] ->; [congruence|exact (H2 s Hs eq_refl)].
    + apply IH in H as (HK & HI); [|exact NK'|exact ND]. split; [exact HK|]. intros k v Hv. destruct (HI k v Hv) as (v' & Hv' & H1 & H2). exists v'. split; [exact Hv'|]. split; [intros HH; apply H1; intros s Hs; apply HH; now right|].
      intros s [<-|Hs] ->; [|exact (H2 s Hs eq_refl)]. apply lookup_none in EL. destruct (EL v Hv).
Qed.
Lemma move_keys_ok dv keys : forall items, (forall k v, In (k, v) items -> exists v', mv v dv = Ok v') -> (forall v v', mv v dv = Ok v' -> exists v3, mv v' dv = Ok v3) -> exists items', move_keys as_long as_tensor keys dv items = Ok items'.
Proof.
  induction keys as [|s0 keys IH]; intros items HI HM; cbn [move_keys]; [now exists items|]. destruct (lookup s0 items) as [v0|] eqn:EL; [|now apply IH].
  apply lookup_some in EL. destruct EL as (b & a & E & _). destruct (HI (KStr s0) v0) as (v1 & E1); [rewrite E; apply in_app_iff; right; now left|]. rewrite E1. cbn [bind]. apply IH; [|exact HM].
  intros k v Hv. assert (HS : v = v1 \/ In (k, v) items). { clear -Hv. induction items as [|(k0, w0) r IH]; [destruct Hv|]. cbn [store] in Hv. destruct (key_is s0 k0); destruct Hv as [H|H]; [injection H as _ <-; now left|right; now right|right; left; exact H|destruct (IH H) as [HH|HH]; [now left|right; now right]]. }
  destruct HS as [->|HS]; [|exact (HI k v HS)]. exact (HM _ _ E1).
Qed.
Lemma device_of_spec v dv : device_of np_device v = Ok (Some dv) ->
  (exists s, tensor v s dv) \/ (exists s, array v s) \/ exists items x s, v = Dict items /\ binds items "x" x /\ (tensor x s dv \/ (array x s /\ np_device = Some dv)).
Proof.
  destruct v as [|i s dt|i s dt dv0|items|i s]; cbn [device_of]; try discriminate.
  - intros _. right. left. now exists s, i, dt.
  - intros [= ->]. left. now exists s, i, dt.
  - destruct (lookup "x" items) as [x|] eqn:EL; [|discriminate]. apply lookup_some in EL. intros H. right. right. exists items, x. destruct x as [|i s dt|i s dt dv0|it|i s]; try discriminate.
    + destruct np_device as [dn|] eqn:EN; [|discriminate]. injection H as ->. exists s. split; [reflexivity|]. split; [exact EL|]. right. split; [now exists i, dt|reflexivity].
    + injection H as ->. exists s. split; [reflexivity|]. split; [exact EL|]. left. now exists i, dt.
Qed.
Lemma device_of_none v : v = Nothing \/ tensor_like v -> device_of np_device v = Ok None -> v = Nothing \/ opaque v.
Proof.
  intros HT. destruct v as [|i s dt|i s dt dv0|items|i s]; cbn [device_of]; [now left| |discriminate| |].
  - destruct HT as [[=]|[(s0 & dv & i0 & dt0 & [=])|(it & k & u & s0 & dv & [=] & _)]].
  - destruct (lookup "x" items) as [x|] eqn:EL; [|intros _; right; exists items; split; [reflexivity|now apply lookup_none]]. destruct x; try discriminate. destruct np_device; discriminate.
  - destruct HT as [[=]|[(s0 & dv & i0 & dt0 & [=])|(it & k & u & s0 & dv & [=] & _)]].
Qed.
Lemma first_device_spec vs o : (forall v, In v vs -> v = Nothing \/ tensor_like v) -> first_device np_device vs = Ok o ->
  match o with
  | Some dv => exists before v after, vs = before ++ v :: after /\ (forall w, In w before -> w = Nothing \/ opaque w) /\ ((exists s, tensor v s dv) \/ exists items x s, v = Dict items /\ binds items "x" x /\ (tensor x s dv \/ (array x s /\ np_device = Some dv)))
  | None => forall v, In v vs -> v = Nothing \/ opaque v
  end.
Proof.
  revert o. induction vs as [|v vs IH]; intros o HT H; cbn [first_device] in H; [injection H as <-; intros v []|]. apply bind_ok in H as ([dv|] & E & H).
  - injection H as <-. exists [], v, vs. split; [reflexivity|]. split; [intros w []|]. apply device_of_spec in E as [E|[(s & i & dt & ->)|E]]; [now left| |now right].
    destruct (HT (Arr i s dt)) as [[=]|[(s0 & dv0 & i0 & dt0 & [=])|(it & k & u & s0 & dv0 & [=] & _)]]. now left.
  - pose proof (device_of_none v (HT v (or_introl eq_refl)) E) as HN. specialize (IH o (fun w Hw => HT w (or_intror Hw)) H). destruct o as [dv|].
    + destruct IH as (b & w & a & -> & H1 & H2). exists (v :: b), w, a. split; [reflexivity|]. split; [|exact H2]. intros x [<-|Hx]; [exact HN|exact (H1 x Hx)].
    + intros w [<-|Hw]; [exact HN|exact (IH w Hw)].
Qed.
Lemma first_device_ok vs : (forall v, In v vs -> v = Nothing \/ tensor_like v) -> (forall v items x, In v vs -> v = Dict items -> binds items "x" x -> exists s dv, tensor x s dv) -> exists o, first_device np_device vs = Ok o.
Proof.
  induction vs as [|v vs IH]; intros HT HX; cbn [first_device]; [now exists None|]. assert (HD : exists o, device_of np_device v = Ok o).
  { destruct v as [|i s dt|i s dt dv0|items|i s]; cbn [device_of]; try (eexists; reflexivity). destruct (lookup "x" items) as [x|] eqn:EL; [|eexists; reflexivity]. apply lookup_some in EL. destruct (HX (Dict items) items x (or_introl eq_refl) eq_refl EL) as (s & dv & i & dt & ->). eexists; reflexivity. }
  destruct HD as ([dv|] & ->); cbn [bind]; [now exists (Some dv)|]. apply IH; [intros w Hw; apply HT; now right|intros w items x Hw; apply HX; now right].
Qed.
End Meta.
