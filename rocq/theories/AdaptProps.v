(* C148: the data adapters of the inductive methods. *)
From Coq Require Import String Lia ZifyBool ZifyNat.
From Verif Require Import Prelude AdaptModel AdaptSpec AdaptProofs AdaptTorchProofs AdaptMetaProofs.
Local Open Scope string_scope.
Local Open Scope Z_scope.
Local Open Scope list_scope.
Local Notation length := List.length.

(* C148: the numpy adapter takes exactly the datasets in order and hands them over unchanged *)
Theorem C148_numpy d0 d' : to_numpy_dataset d0 = Ok d' <-> d0 = Some d' /\ numpy_ready d'.
Proof. apply numpy_iff. Qed.
(* C148: its refusals are validation errors, as long as numpy can make an array of each field *)
Theorem C148_numpy_errors d0 e : to_numpy_dataset d0 = Err e ->
  e = InductiveValidationError \/ (e = ValueError /\ exists d v, d0 = Some d /\ In v [d_xl d; d_yl d; d_xu d; d_xw d; d_xs d] /\ hopeless v).
Proof.
  unfold to_numpy_dataset, validate. destruct d0 as [d|]; [|cbn [bind]; intros [= <-]; now left].
  assert (HB : forall A B (r : result A) (f : A -> result B), bind r f = Err e -> r = Err e \/ exists a, r = Ok a /\ f a = Err e) by (intros A B [a|x] f; cbn [bind]; [right; now exists a|intros [= ->]; now left]).
  assert (HN : forall v x, np_shape v = Err x -> x = ValueError /\ hopeless v) by (intros [| | | |i [s|]] x; cbn [np_shape]; try discriminate; intros [= <-]; split; [reflexivity|now exists i]).
  assert (HQ : forall v x, require_numpy v = Err x -> x = InductiveValidationError) by (intros [] x; cbn [require_numpy]; try discriminate; now intros [= <-]).
  assert (H2 : forall v x, require_2d v = Err x -> x = InductiveValidationError \/ (x = ValueError /\ hopeless v)).
  { intros v x. unfold require_2d. destruct (np_shape v) as [s|y] eqn:E; cbn [bind]; [destruct (Nat.ltb (length s) 2); [intros [= <-]; now left|discriminate]|]. intros [= <-]. right. now apply HN. }
  assert (HU : forall v f x, require_u v f = Err x -> x = InductiveValidationError \/ (x = ValueError /\ hopeless v)).
  { intros v f x. assert (HH : (do s <- require_2d v; if Nat.eqb (nth 1 s 0%nat) f then Ok tt else Err InductiveValidationError) = Err x -> x = InductiveValidationError \/ (x = ValueError /\ hopeless v)) by (destruct (require_2d v) as [s|y] eqn:E; cbn [bind]; [destruct (Nat.eqb (nth 1 s 0%nat) f); [discriminate|intros [= <-]; now left]|intros [= <-]; now apply H2]). destruct v; [discriminate|..]; exact HH. }
  assert (HF : forall v, In v [d_xl d; d_yl d; d_xu d; d_xw d; d_xs d] -> forall x, x = InductiveValidationError \/ (x = ValueError /\ hopeless v) -> e = x -> e = InductiveValidationError \/ (e = ValueError /\ exists d1 v, Some d = Some d1 /\ In v [d_xl d1; d_yl d1; d_xu d1; d_xw d1; d_xs d1] /\ hopeless v)).
  { intros v Hv x [->|(-> & Hh)] ->; [now left|]. right. split; [reflexivity|]. exists d, v. now split. }
  assert (HI : forall items x, require_items require_numpy items = Err x -> x = InductiveValidationError).
  { induction items as [|(k, v) r IH]; intros x; cbn [require_items]; [discriminate|]. destruct (is_str k); [|now intros [= <-]]. destruct (require_numpy v) as [v'|y] eqn:E; cbn [bind]; [|intros [= <-]; now apply HQ in E]. destruct (require_items require_numpy r) as [r'|y] eqn:E2; cbn [bind]; [discriminate|]. intros [= <-]. now apply IH. }
  intros H. apply HB in H as [H|([] & _ & H)].
  - apply HB in H as [H|(sl & E1 & H)]; [eapply HF; [|apply H2; exact H|reflexivity]; now left|].
    apply HB in H as [H|([] & _ & H)].
    { unfold require_y in H. apply HB in H as [H|(s & _ & H)]; [eapply (HF (d_yl d)); [right; now left|right; apply HN; exact H|reflexivity]|]. destruct (negb _); [injection H as <-; now left|]. destruct (negb _); [injection H as <-; now left|discriminate]. }
    apply HB in H as [H|([] & _ & H)]; [eapply HF; [|eapply HU; exact H|reflexivity]; right; right; now left|].
    apply HB in H as [H|([] & _ & H)]; [eapply HF; [|eapply HU; exact H|reflexivity]; right; right; right; now left|].
    apply HB in H as [H|([] & _ & H)]; [eapply HF; [|eapply HU; exact H|reflexivity]; right; right; right; right; now left|].
    apply HB in H as [H|([] & _ & H)].
    { assert (HS : (do a <- np_shape (d_xw d); do b <- np_shape (d_xs d); if Nat.eqb (nth 0 a 0%nat) (nth 0 b 0%nat) then Ok tt else Err InductiveValidationError) = Err e) by (unfold same_rows in H; destruct (d_xw d); [discriminate|..]; destruct (d_xs d); try discriminate; exact H).
      apply HB in HS as [HS|(a & _ & HS)]; [eapply (HF (d_xw d)); [right; right; right; now left|right; apply HN; exact HS|reflexivity]|]. apply HB in HS as [HS|(b & _ & HS)]; [eapply (HF (d_xs d)); [right; right; right; right; now left|right; apply HN; exact HS|reflexivity]|]. destruct (Nat.eqb _ _); [discriminate|injection HS as <-; now left]. }
    apply HB in H as [H|([] & _ & H)].
    { unfold validate_views in H. destruct (d_views d); [discriminate|destruct (forallb _ _); [discriminate|]|]; injection H as <-; now left. }
    unfold validate_meta in H. destruct (d_meta d); try discriminate. injection H as <-. now left.
  - left. assert (HO : forall v x, optionally require_numpy v = Err x -> x = InductiveValidationError) by (intros [] x; cbn [optionally]; try discriminate; apply HQ).
    apply HB in H as [H|(? & _ & H)]; [now apply HQ in H|]. apply HB in H as [H|(? & _ & H)]; [now apply HQ in H|]. apply HB in H as [H|(? & _ & H)]; [now apply HO in H|]. apply HB in H as [H|(? & _ & H)]; [now apply HO in H|]. apply HB in H as [H|(? & _ & H)]; [now apply HO in H|].
    apply HB in H as [H|(? & _ & H)]; [|discriminate]. unfold require_views in H. destruct (d_views d) as [|items|n]; [discriminate| |now injection H as <-]. apply HB in H as [H|(? & _ & H)]; [now apply HI in H|discriminate].
Qed.

Section TorchAdapter.
Variable available : string -> bool.
Variable np_device : option device.
Variable as_long : nat -> nat.
Variable as_tensor : val -> device -> result val.
Notation adapt := (to_torch_dataset available np_device as_long as_tensor).

(* C148: what the torch adapter takes is in order and comes back unchanged, but for the index entries of meta *)
Theorem C148_torch d0 dev same d' : adapt d0 dev same = Ok d' ->
  exists d, d0 = Some d /\ torch_ready available d dev same /\
    d_xl d' = d_xl d /\ d_yl d' = d_yl d /\ d_xu d' = d_xu d /\ d_xw d' = d_xw d /\ d_xs d' = d_xs d /\ d_views d' = d_views d /\
    ((forall items, d_meta d <> Map items) -> d_meta d' = d_meta d).
Proof.
  destruct d0 as [d|]; [|discriminate]. intros H. apply torch_split in H as (HR & m & HM & ->). exists d. split; [reflexivity|]. split; [exact HR|]. cbn [d_xl d_yl d_xu d_xw d_xs d_views d_meta]. repeat (split; [reflexivity|]).
  intros HN. unfold move_meta in HM. destruct (d_meta d) as [|items|k]; [now injection HM as <-|destruct (HN items eq_refl)|now injection HM as <-].
Qed.
(* C148: every dataset in order is taken when meta is no mapping, or the features under x are tensors and the index entries can be converted *)
Theorem C148_torch_returns d dev same : torch_ready available d dev same ->
  (forall items, d_meta d = Map items ->
     (forall v its x, In v [d_xu d; d_xw d; d_xs d; d_xl d] -> v = Dict its -> binds its "x" x -> exists s dv, tensor x s dv) /\
     (forall k v dv, In (k, v) items -> (exists s dv0, tensor v s dv0) \/ exists v' s, as_tensor v dv = Ok v' /\ tensor v' s dv)) ->
  (forall v dv v', as_tensor v dv = Ok v' -> exists s, tensor v' s dv) ->
  exists d', adapt (Some d) dev same = Ok d'.
Proof.
  intros HR HM HT. enough (exists m, move_meta np_device as_long as_tensor d = Ok m) as (m & E) by (eexists; apply torch_split; split; [exact HR|]; exists m; split; [exact E|reflexivity]).
  unfold move_meta. destruct (d_meta d) as [|items|k]; [eexists; reflexivity| |eexists; reflexivity]. destruct (HM items eq_refl) as (H1 & H2).
  destruct HR as (sl & sy & n & f & dy & T1 & _ & _ & _ & _ & HU & _).
  destruct (first_device_ok np_device [d_xu d; d_xw d; d_xs d; d_xl d]) as (o & ->).
  - intros v [<-|[<-|[<-|[<-|[]]]]]; [| | |now right]; (match goal with |- ?v = Nothing \/ _ => destruct (HU v) as [H|(H & _)]; [cbn [In]; auto|now left|now right] end).
  - exact H1.
  - cbn [bind]. destruct o as [dv|]; [|eexists; reflexivity]. destruct (move_keys_ok as_long as_tensor dv index_keys items) as (items' & ->); [| |eexists; reflexivity].
    + intros k v Hv. destruct (H2 k v dv Hv) as [(s & dv0 & i & dt & ->)|(v' & s & E & _)]; [cbn [moved]; match goal with |- context [if ?b then _ else _] => destruct b end; eexists; reflexivity|]. destruct v; cbn [moved]; try (now exists v'). match goal with |- context [if ?b then _ else _] => destruct b end; eexists; reflexivity.
    + intros v v' E. assert (HV : exists s, tensor v' s dv \/ exists s0 dv0, tensor v' s0 dv0).
      { destruct v as [|i s dt|i s dt dv0|its|i s]; cbn [moved] in E; try (destruct (HT _ _ _ E) as (s' & Hs); exists s'; now left). exists s. right. match goal with H : (if ?b then _ else _) = _ |- _ => destruct b end; injection E as <-; [exists s, dv0|exists s, dv]; eexists _, _; reflexivity. }
      destruct HV as (s & [(i & dt & ->)|(s0 & dv0 & i & dt & ->)]); cbn [moved]; match goal with |- context [if ?b then _ else _] => destruct b end; eexists; reflexivity.
Qed.
(* C148: index entries of meta become int64 tensors on the device of the unlabeled data; nothing else in meta changes *)
Theorem C148_meta d dev same d' items : adapt (Some d) dev same = Ok d' -> d_meta d = Map items -> NoDup (map fst items) ->
  (forall v dv v', as_tensor v dv = Ok v' -> exists i s, v' = Ten i s Int64 dv) ->
  exists dv items', leads np_device d dv /\ d_meta d' = Map items' /\ map fst items' = map fst items /\
    forall k v, In (k, v) items -> exists v', In (k, v') items' /\ (~ index_key k -> v' = v) /\ (index_key k -> long_on dv v v').
Proof.
  intros H EM ND HT. apply torch_split in H as (HR & m & HM & ->). cbn [d_meta]. unfold move_meta in HM. rewrite EM in HM. apply bind_ok in HM as (o & EO & HM).
  destruct HR as (sl & sy & n & f & dy & T1 & F1 & _ & _ & _ & HU & _).
  apply first_device_spec in EO.
  2: { intros v [<-|[<-|[<-|[<-|[]]]]]; [| | |now right]; (match goal with |- ?v = Nothing \/ _ => destruct (HU v) as [H|(H & _)]; [cbn [In]; auto|now left|now right] end). }
  destruct o as [dv|].
  2: { destruct (EO (d_xl d)) as [HN|HN]; [cbn [In]; auto|destruct (tensor_like_some _ T1 HN)|]. apply opaque_iff in HN. rewrite (featured_clear _ _ F1) in HN. discriminate. }
  apply bind_ok in HM as (items' & EI & HM). injection HM as <-. exists dv, items'. split; [exact EO|]. split; [reflexivity|].
  apply move_keys_spec in EI as (HK & HI); [|unfold index_keys; repeat constructor; cbn [In]; intuition discriminate|exact ND]. split; [exact HK|]. intros k v Hv. destruct (HI k v Hv) as (v' & Hv' & H1 & H2). exists v'. split; [exact Hv'|]. split.
  - intros HN. apply H1. intros s Hs ->. apply HN. unfold index_key. destruct Hs as [<-|[<-|[<-|[]]]]; auto.
  - intros HK'. assert (EV : moved as_long as_tensor v dv = Ok v') by (destruct HK' as [->|[->| ->]]; (eapply H2; [|reflexivity]; cbn [index_keys In]; auto)).
    clear -EV HT. unfold long_on. destruct v as [|i s dt|i s dt dv0|its|i s]; cbn [moved] in EV.
    1,2,4,5: destruct (HT _ _ _ EV) as (i' & s' & ->); exists i', s'; split; [reflexivity|]; split; intros; discriminate.
    destruct dt; [destruct (device_eqb dv0 dv) eqn:ED|..]; injection EV as <-.
    + apply device_eqb_spec in ED as ->. exists i, s. split; [reflexivity|]. split; [intros ? ? ? ? [=]; congruence|intros ? ? [=]; congruence].
    + exists (as_long i), s. split; [reflexivity|]. split; [intros ? ? ? ? [=]; congruence|]. intros j s0 [= _ _ ->]. rewrite (proj2 (device_eqb_spec dv dv) eq_refl) in ED. discriminate.
    + exists (as_long i), s. split; [reflexivity|]. split; [intros ? ? ? ? [=]; congruence|intros ? ? [=]].
    + exists (as_long i), s. split; [reflexivity|]. split; [intros ? ? ? ? [=]; congruence|intros ? ? [=]].
Qed.
(* C148: naming the device adds one demand to "auto": every tensor lies on that device, and dicts hold tensors only *)
Theorem C148_named_device d same r : (r = "cpu" \/ r = "cuda" \/ r = "mps") ->
  torch_ready available d (Some r) same <->
  torch_ready available d (Some "auto") same /\ (r = "cpu" \/ available r = true) /\ all_on d (if String.eqb r "cpu" then Cpu else Acc r None).
Proof.
  intros HR. unfold torch_ready. split.
  - intros (sl & sy & n & f & dy & H1 & H2 & H3 & H4 & H5 & H6 & H7 & H8 & H9 & H10). destruct (H10 r eq_refl) as (ex & HE & HA); [destruct HR as [->|[->| ->]]; discriminate|]. split.
    + exists sl, sy, n, f, dy. repeat (split; [assumption|]). intros r' [= <-] HN. destruct (HN eq_refl).
    + destruct HE as [(-> & ->)|(HC & HV & ->)]; [split; [now left|exact HA]|]. split; [now right|]. destruct HC as [->| ->]; exact HA.
  - intros ((sl & sy & n & f & dy & H1 & H2 & H3 & H4 & H5 & H6 & H7 & H8 & H9 & _) & HV & HA). exists sl, sy, n, f, dy. repeat (split; [assumption|]). intros r' [= <-] _. destruct HR as [->|[->| ->]].
    + exists Cpu. split; [left; now split|exact HA].
    + exists (Acc "cuda" None). destruct HV as [[=]|HV]. split; [right; auto|exact HA].
    + exists (Acc "mps" None). destruct HV as [[=]|HV]. split; [right; auto|exact HA].
Qed.
(* C148, refuted: with device cuda or mps no dataset at all is taken, since torch numbers the device of a tensor and the
   device asked for has no number *)
Theorem C148_accelerator_refuted d dev same r : dev = Some r -> (r = "cuda" \/ r = "mps") ->
  (forall u s dv, somewhere d u -> tensor u s dv -> placed dv) -> forall d', adapt (Some d) dev same <> Ok d'.
Proof.
  intros -> HR HP d' H. apply torch_split in H as ((sl & sy & n & f & dy & _ & _ & _ & HY & _ & _ & _ & _ & _ & HD) & _). destruct (HD r eq_refl) as (ex & HE & HA); [destruct HR as [->| ->]; discriminate|].
  assert (HS : somewhere d (d_yl d)). { exists (d_yl d). split; [left; right; now left|]. destruct HY as (i & dt & ->). constructor. discriminate. }
  destruct (HA _ HS) as [E|(s & HT)]; [rewrite E in HY; destruct HY as (i & dt & [=])|]. specialize (HP _ _ _ HS HT). destruct HE as [(-> & ->)|(_ & _ & ->)]; [destruct HR; discriminate|]. now apply HP.
Qed.
End TorchAdapter.

(* a dataset of tensors on one device, with index entries in meta *)
Definition ax_as_tensor (v : val) (dv : device) : result val := Ok (Ten 99 [2]%nat Int64 dv).
Example ax_as_tensor_ok v dv v' : ax_as_tensor v dv = Ok v' -> exists i s, v' = Ten i s Int64 dv.
Proof. intros [= <-]. eexists _, _. reflexivity. Qed.
Definition ax_cpu (dv : device) (meta : mapping) : data :=
  {| d_xl := Ten 1 [2; 3]%nat NotInt dv; d_yl := Ten 2 [2]%nat Int64 dv; d_xu := Dict [(KStr "x", Ten 3 [4; 3]%nat NotInt dv); (KStr "edge_index", Ten 4 [2; 5]%nat Int64 dv)];
     d_xw := Nothing; d_xs := Nothing; d_views := NoMap; d_meta := meta |}.
Notation ax := (to_torch_dataset (fun _ => true) None (fun i => (i + 100)%nat) ax_as_tensor).
Example C148_torch_ex : exists d', ax (Some (ax_cpu Cpu (Map [(KStr "idx_u", Ten 7 [4]%nat OtherInt Cpu); (KStr "note", Other 8 None)]))) (Some "cpu") true = Ok d' /\
  d_meta d' = Map [(KStr "idx_u", Ten 107 [4]%nat Int64 Cpu); (KStr "note", Other 8 None)].
Proof. eexists. split; vm_compute; reflexivity. Qed.
Example C148_torch_ready_ex : torch_ready (fun _ => true) (ax_cpu Cpu NoMap) (Some "cpu") true.
Proof. apply checks_iff. vm_compute. reflexivity. Qed.
Example C148_accelerator_ex : forall d', ax (Some (ax_cpu (Acc "cuda" (Some 0%nat)) NoMap)) (Some "cuda") true <> Ok d'.
Proof.
  intros d'. vm_compute. discriminate.
Qed.
Example C148_accelerator_auto_ex : exists d', ax (Some (ax_cpu (Acc "cuda" (Some 0%nat)) NoMap)) (Some "auto") true = Ok d'.
Proof. eexists. vm_compute. reflexivity. Qed.
Definition ax_np (xu xw : val) (meta : mapping) : data :=
  {| d_xl := Arr 1 [2; 3; 8; 8]%nat NotInt; d_yl := Arr 2 [2]%nat Int64; d_xu := xu; d_xw := xw; d_xs := Nothing; d_views := Map [(KStr "a", Arr 4 [9]%nat NotInt)]; d_meta := meta |}.
Example C148_numpy_ex : numpy_ready (ax_np (Arr 3 [5; 3; 8; 8]%nat NotInt) Nothing (Map [])).
Proof. apply (proj2 (proj1 (numpy_iff (Some (ax_np (Arr 3 [5; 3; 8; 8]%nat NotInt) Nothing (Map []))) _) eq_refl)). Qed.
(* C148, refuted: images of another height and width are taken as unlabeled data, only the second size is compared *)
Theorem C148_trailing_refuted : exists d' i, to_numpy_dataset (Some (ax_np (Arr i [5; 3; 32; 16]%nat NotInt) Nothing NoMap)) = Ok d'.
Proof. eexists _, 3%nat. vm_compute. reflexivity. Qed.
(* C148, refuted: a dict without x is refused by an attribute error as labelled data, and taken without any check as unlabeled data *)
Theorem C148_opaque_refuted : exists v : val,
  (forall dy, ax (Some {| d_xl := v; d_yl := Ten 2 [2]%nat Int64 dy; d_xu := Nothing; d_xw := Nothing; d_xs := Nothing; d_views := NoMap; d_meta := NoMap |}) None true = Err AttributeError) /\
  exists d', ax (Some {| d_xl := Ten 1 [2; 3]%nat NotInt Cpu; d_yl := Ten 2 [2]%nat Int64 Cpu; d_xu := v; d_xw := Nothing; d_xs := Nothing; d_views := NoMap; d_meta := NoMap |}) (Some "cpu") true = Ok d'.
Proof. exists (Dict [(KStr "features", Ten 5 [7; 11]%nat NotInt Cpu)]). split; [intros dy; vm_compute; reflexivity|]. eexists. vm_compute. reflexivity. Qed.
(* C148, refuted: a dict that also holds a number is taken with device auto and fails with an attribute error with device cpu *)
Theorem C148_extra_refuted : exists d, (exists d', ax (Some d) (Some "auto") true = Ok d') /\ ax (Some d) (Some "cpu") true = Err AttributeError.
Proof. exists {| d_xl := Dict [(KStr "x", Ten 1 [2; 3]%nat NotInt Cpu); (KStr "num_nodes", Other 5 (Some []))]; d_yl := Ten 2 [2]%nat Int64 Cpu; d_xu := Nothing; d_xw := Nothing; d_xs := Nothing; d_views := NoMap; d_meta := NoMap |}. split; [eexists|]; vm_compute; reflexivity. Qed.
(* C148, refuted: the torch adapter lets a meta pass that is no mapping; the numpy adapter refuses it *)
Theorem C148_meta_refuted : exists k, (exists d', ax (Some (ax_cpu Cpu (NotMap k))) (Some "cpu") true = Ok d') /\ forall xu, to_numpy_dataset (Some (ax_np xu Nothing (NotMap k))) = Err InductiveValidationError \/ hopeless xu.
Proof.
  exists 0%nat. split; [eexists; vm_compute; reflexivity|]. intros xu. destruct (to_numpy_dataset (Some (ax_np xu Nothing (NotMap 0)))) as [d'|e] eqn:E.
  - apply C148_numpy in E as ([= <-] & _ & _ & _ & _ & _ & _ & _ & _ & _ & _ & _ & [HM|(items & HM)]); discriminate HM.
  - apply C148_numpy_errors in E as [->|(-> & d & v & [= <-] & Hv & Hh)]; [now left|right]. destruct Hh as (i & ->). cbn [ax_np d_xl d_yl d_xu d_xw d_xs In] in Hv. destruct Hv as [[=]|[[=]|[E|[[=]|[[=]|[]]]]]]. exists i. exact E.
Qed.
Print Assumptions C148_numpy.
Print Assumptions C148_numpy_errors.
Print Assumptions C148_torch.
Print Assumptions C148_torch_returns.
Print Assumptions C148_meta.
Print Assumptions C148_named_device.
Print Assumptions C148_accelerator_refuted.
Print Assumptions C148_trailing_refuted.
Print Assumptions C148_opaque_refuted.
Print Assumptions C148_extra_refuted.
Print Assumptions C148_meta_refuted.
