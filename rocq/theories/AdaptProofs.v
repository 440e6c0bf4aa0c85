(* Proofs for C148. *)
From Coq Require Import String Lia ZifyBool ZifyNat.
From Verif Require Import Prelude AdaptModel AdaptSpec.
Local Open Scope string_scope.
Local Open Scope Z_scope.
Local Open Scope list_scope.
Local Notation length := List.length.

Lemma bind_ok {A B} (r : result A) (f : A -> result B) b : bind r f = Ok b <-> exists a, r = Ok a /\ f a = Ok b.
Proof. destruct r as [a|e]; cbn [bind]; split; [eauto|intros (x & [= <-] & H); exact H|discriminate|intros (x & [=] & _)]. Qed.

(* induction over values *)
Lemma val_deep (P : val -> Prop) :
  P Nothing -> (forall i s dt, P (Arr i s dt)) -> (forall i s dt dv, P (Ten i s dt dv)) ->
  (forall items, (forall k v, In (k, v) items -> P v) -> P (Dict items)) -> (forall i s, P (Other i s)) -> forall v, P v.
Proof.
  intros H1 H2 H3 H4 H5. fix rec 1. intros [| i s dt | i s dt dv | items | i s]; [exact H1|apply H2|apply H3| |apply H5].
  apply H4. induction items as [|(k0, v0) r IH]; intros k v; [intros []|]. intros [E|Hr]; [injection E as _ <-; apply rec|exact (IH k v Hr)].
Qed.
Lemma device_eqb_spec a b : device_eqb a b = true <-> a = b.
Proof.
  destruct a as [|k i], b as [|k' i']; cbn [device_eqb]; [split; reflexivity|split; discriminate|split; discriminate|]. rewrite andb_true_iff, String.eqb_eq. split.
  - intros (-> & H). destruct i as [x|], i' as [y|]; try discriminate; [apply Nat.eqb_eq in H as ->|]; reflexivity.
  - intros [= -> ->]. split; [reflexivity|]. destruct i' as [y|]; [apply Nat.eqb_refl|reflexivity].
Qed.
Lemma sized_iff s : (2 <= length s)%nat <-> exists n f, sized s n f.
Proof. split; [|intros (n & f & r & ->); cbn [length]; lia]. destruct s as [|n [|f r]]; cbn [length]; [lia|lia|]. intros _. exists n, f, r. reflexivity. Qed.
Lemma sized_nth s n f : sized s n f -> nth 0 s 0%nat = n /\ nth 1 s 0%nat = f /\ nth_error s 0 = Some n /\ nth_error s 1 = Some f.
Proof. intros (r & ->). repeat split. Qed.
Lemma labelling_iff s n : (negb (Nat.eqb (length s) 1 || Nat.eqb (length s) 2) = false /\ negb (Nat.eqb (nth 0 s 0%nat) n) = false) <-> labelling s n.
Proof.
  unfold labelling. rewrite !negb_false_iff, orb_true_iff, !Nat.eqb_eq. split.
  - intros ([H|H] & E); destruct s as [|a [|b [|c s]]]; try discriminate H; cbn [nth] in E; subst a; [now left|right; now exists b].
  - intros [->|(c & ->)]; cbn [length nth]; split; auto.
Qed.

(* ----- numpy ----- *)
Lemma require_2d_ok v s : require_2d v = Ok s <-> np_shape v = Ok s /\ exists n f, sized s n f.
Proof.
  unfold require_2d. rewrite bind_ok. split.
  - intros (a & E & H). destruct (Nat.ltb_spec (length a) 2); [discriminate|]. injection H as <-. split; [exact E|]. now apply sized_iff.
  - intros (E & H). apply sized_iff in H. exists s. split; [exact E|]. destruct (Nat.ltb_spec (length s) 2); [lia|reflexivity].
Qed.
Lemma require_y_ok v n : require_y v n = Ok tt <-> exists s, np_shape v = Ok s /\ labelling s n.
Proof.
  unfold require_y. rewrite bind_ok. split; intros (s & E & H); exists s; (split; [exact E|]).
  - apply labelling_iff. destruct (negb (Nat.eqb (length s) 1 || Nat.eqb (length s) 2)); [discriminate|]. destruct (negb (Nat.eqb (nth 0 s 0%nat) n)); [discriminate|]. now split.
  - apply labelling_iff in H as (-> & ->). reflexivity.
Qed.
Lemma require_u_ok v f : require_u v f = Ok tt <-> v = Nothing \/ (v <> Nothing /\ exists s m, np_shape v = Ok s /\ sized s m f).
Proof.
  assert (H : (do s <- require_2d v; if Nat.eqb (nth 1 s 0%nat) f then Ok tt else Err InductiveValidationError) = Ok tt <-> exists s m, np_shape v = Ok s /\ sized s m f).
  { rewrite bind_ok. split.
    - intros (s & E & H). apply require_2d_ok in E as (E & n & f' & Hs). destruct (Nat.eqb_spec (nth 1 s 0%nat) f) as [E2|]; [|discriminate]. destruct (sized_nth _ _ _ Hs) as (_ & E3 & _). exists s, n. split; [exact E|]. congruence.
    - intros (s & m & E & Hs). exists s. split; [apply require_2d_ok; split; [exact E|eauto]|]. destruct (sized_nth _ _ _ Hs) as (_ & -> & _). now rewrite Nat.eqb_refl. }
  unfold require_u. destruct v; [split; [now left|reflexivity]|..]; rewrite H; (split; [intros HH; right; split; [discriminate|exact HH]|intros [HH|(_ & HH)]; [discriminate HH|exact HH]]).
Qed.
Lemma require_numpy_ok v w : require_numpy v = Ok w <-> w = v /\ exists s, array v s.
Proof.
  destruct v; cbn [require_numpy]; try (split; [discriminate|intros (_ & s' & i' & dt' & [=])]). split.
  - intros [= <-]. split; [reflexivity|]. eexists _, _, _. reflexivity.
  - intros (-> & _). reflexivity.
Qed.
Lemma optionally_ok f v w : (optionally f v = Ok w) <-> (v = Nothing /\ w = Nothing) \/ (v <> Nothing /\ f v = Ok w).
Proof.
  destruct v; cbn [optionally]; [split; [intros [= <-]; now left|intros [(_ & ->)|(H & _)]; [reflexivity|congruence]]|..]; (split; [intros H; right; split; [discriminate|exact H]|intros [([=] & _)|(_ & H)]; exact H]).
Qed.
Lemma require_items_ok f (P : val -> Prop) items items' : (forall v w, f v = Ok w <-> w = v /\ P v) ->
  require_items f items = Ok items' <-> items' = items /\ string_keys items /\ forall k v, In (k, v) items -> P v.
Proof.
  intros HF. revert items'. induction items as [|(k, v) r IH]; intros items'; cbn [require_items].
  - split; [intros [= <-]; repeat split; [intros k v []|intros k v []]|intros (-> & _); reflexivity].
  - destruct k as [s|n]; cbn [is_str].
    + rewrite bind_ok. split.
      * intros (v' & E & H). apply HF in E as (-> & Hv). apply bind_ok in H as (r' & E & H). apply IH in E as (-> & H1 & H2). injection H as <-. split; [reflexivity|]. split.
        -- intros k w [[= <- <-]|Hw]; [now exists s|exact (H1 _ _ Hw)].
        -- intros k w [[= <- <-]|Hw]; [exact Hv|exact (H2 _ _ Hw)].
      * intros (-> & H1 & H2). exists v. split; [apply HF; split; [reflexivity|apply (H2 (KStr s)); now left]|]. rewrite (proj2 (IH r)); [reflexivity|]. split; [reflexivity|]. split; intros k w Hw; [apply (H1 k w)|apply (H2 k w)]; now right.
    + split; [discriminate|]. intros (_ & H & _). destruct (H (KOther n) v) as (s & [=]). now left.
Qed.
Lemma require_views_ok f (P : val -> Prop) m m' : (forall v w, f v = Ok w <-> w = v /\ P v) ->
  require_views f m = Ok m' <-> m' = m /\ (m = NoMap \/ exists items, m = Map items /\ string_keys items /\ forall k v, In (k, v) items -> P v).
Proof.
  intros HF. destruct m as [|items|n]; cbn [require_views].
  - split; [intros [= <-]; split; [reflexivity|now left]|intros (-> & _); reflexivity].
  - rewrite bind_ok. split.
    + intros (items' & E & [= <-]). apply (require_items_ok f P) in E as (-> & H); [|exact HF]. split; [reflexivity|]. right. exists items. split; [reflexivity|exact H].
    + intros (-> & [[=]|(items0 & [= <-] & H)]). exists items. split; [|reflexivity]. apply (require_items_ok f P _ _ HF). split; [reflexivity|exact H].
  - split; [discriminate|]. intros (_ & [[=]|(items & [=] & _)]).
Qed.
Lemma validate_views_ok m : validate_views m = Ok tt <-> m = NoMap \/ exists items, m = Map items /\ string_keys items.
Proof.
  destruct m as [|items|n]; cbn [validate_views]; [split; [now left|reflexivity]| |split; [discriminate|intros [[=]|(i & [=] & _)]]].
  assert (H : forallb (fun kv => is_str (fst kv)) items = true <-> string_keys items).
  { rewrite forallb_forall. split.
    - intros H k v Hv. specialize (H _ Hv). cbn [fst] in H. destruct k as [s|]; [now exists s|discriminate].
    - intros H (k, v) Hv. destruct (H _ _ Hv) as (s & ->). reflexivity. }
  destruct (forallb (fun kv => is_str (fst kv)) items).
  - split; [|reflexivity]. intros _. right. exists items. split; [reflexivity|now apply H].
  - split; [discriminate|]. intros [[=]|(i & [= <-] & HS)]. apply H in HS. discriminate.
Qed.
Lemma array_shape v s : array v s -> np_shape v = Ok s /\ v <> Nothing.
Proof. intros (i & dt & ->). split; [reflexivity|discriminate]. Qed.
Lemma array_inj v s s' : array v s -> array v s' -> s = s'.
Proof. intros (i & dt & ->) (i' & dt' & [= _ E _]). exact E. Qed.

Theorem numpy_iff d0 d' : to_numpy_dataset d0 = Ok d' <-> d0 = Some d' /\ numpy_ready d'.
Proof.
  unfold to_numpy_dataset, validate. destruct d0 as [d|]; [|cbn [bind]; split; [discriminate|intros ([=] & _)]].
  rewrite bind_ok. split.
  - intros (u & E & H). apply bind_ok in E as (sl & E1 & E). apply bind_ok in E as ([] & E2 & E). apply bind_ok in E as ([] & E3 & E). apply bind_ok in E as ([] & E4 & E). apply bind_ok in E as ([] & E5 & E). apply bind_ok in E as ([] & E6 & E). apply bind_ok in E as ([] & E7 & E8).
    apply bind_ok in H as (xl & R1 & H). apply bind_ok in H as (yl & R2 & H). apply bind_ok in H as (xu & R3 & H). apply bind_ok in H as (xw & R4 & H). apply bind_ok in H as (xs & R5 & H). apply bind_ok in H as (vs & R6 & H).
    apply require_numpy_ok in R1 as (-> & s1 & A1). apply require_numpy_ok in R2 as (-> & s2 & A2). pose proof require_numpy_ok as RN.
    assert (HU : forall v w, optionally require_numpy v = Ok w -> w = v /\ (v = Nothing \/ exists s, array v s)).
    { intros v w HO. apply optionally_ok in HO as [(-> & ->)|(_ & HO)]; [split; [reflexivity|now left]|]. apply require_numpy_ok in HO as (-> & HA). split; [reflexivity|now right]. }
    apply HU in R3 as (-> & A3). apply HU in R4 as (-> & A4). apply HU in R5 as (-> & A5). apply (require_views_ok require_numpy (fun v => exists s, array v s) _ _ RN) in R6 as (-> & A6).
    injection H as <-. split; [destruct d; reflexivity|]. unfold numpy_ready. cbn [d_xl d_yl d_xu d_xw d_xs d_views d_meta].
    apply require_2d_ok in E1 as (E1 & n & f & Hs). rewrite (proj1 (array_shape _ _ A1)) in E1. injection E1 as <-. destruct (sized_nth _ _ _ Hs) as (N0 & N1 & _). rewrite N0, N1 in *.
    apply require_y_ok in E2 as (sy & E2 & HL). rewrite (proj1 (array_shape _ _ A2)) in E2. injection E2 as <-.
    exists s1, s2, n, f. split; [exact A1|]. split; [exact Hs|]. split; [exact A2|]. split; [exact HL|]. split.
    { assert (HX : forall v, require_u v f = Ok tt -> (v = Nothing \/ (exists s, array v s)) -> v = Nothing \/ exists s m, array v s /\ sized s m f).
      { intros v Hu [->|(s & Ha)]; [now left|]. right. apply require_u_ok in Hu as [->|(_ & s' & m & Es & Hz)]; [destruct (proj2 (array_shape _ _ Ha) eq_refl)|]. rewrite (proj1 (array_shape _ _ Ha)) in Es. injection Es as <-. now exists s, m. }
      intros v [<-|[<-|[<-|[]]]]; apply HX; assumption. }
    split.
    { intros sw ss Hw Hss. destruct Hw as (iw & dw & Ew), Hss as (is_ & dss & Es). rewrite Ew, Es in E6. cbn [same_rows np_shape bind] in E6. destruct (Nat.eqb_spec (nth 0 sw 0%nat) (nth 0 ss 0%nat)) as [EN|]; [|discriminate].
      assert (HZ : forall v s, In v [d_xw d; d_xs d] -> array v s -> exists m g, sized s m g).
      { intros v s Hv Ha. assert (Hu : require_u v f = Ok tt) by (destruct Hv as [<-|[<-|[]]]; assumption). apply require_u_ok in Hu as [->|(_ & s' & m & Es' & Hz)]; [destruct (proj2 (array_shape _ _ Ha) eq_refl)|]. rewrite (proj1 (array_shape _ _ Ha)) in Es'. injection Es' as <-. now exists m, f. }
      destruct (HZ (d_xw d) sw) as (m & g & r & ->); [now left|now exists iw, dw|]. destruct (HZ (d_xs d) ss) as (m' & g' & r' & ->); [right; now left|now exists is_, dss|]. cbn [nth] in EN. subst m'. reflexivity. }
    split; [exact A6|]. destruct (d_meta d) as [|items|k]; [now left|right; now exists items|discriminate E8].
  - intros ([= ->] & sl & sy & n & f & A1 & Hs & A2 & HL & HU & HW & HV & HM). exists tt. split.
    + apply bind_ok. exists sl. split; [apply require_2d_ok; split; [now apply array_shape|eauto]|]. destruct (sized_nth _ _ _ Hs) as (-> & -> & _).
      rewrite (proj2 (require_y_ok _ _)); [|exists sy; split; [now apply array_shape|exact HL]]. cbn [bind].
      assert (HX : forall v, In v [d_xu d'; d_xw d'; d_xs d'] -> require_u v f = Ok tt).
      { intros v Hv. apply require_u_ok. destruct (HU v Hv) as [->|(s & m & Ha & Hz)]; [now left|]. right. destruct (array_shape _ _ Ha) as (E & HN). split; [exact HN|]. exists s, m. now split. }
      rewrite (HX (d_xu d')); [|now left]. cbn [bind]. rewrite (HX (d_xw d')); [|right; now left]. cbn [bind]. rewrite (HX (d_xs d')); [|right; right; now left]. cbn [bind].
      assert (HR : same_rows (d_xw d') (d_xs d') = Ok tt).
      { destruct (HU (d_xw d')) as [->|(sw & m & Ha & Hz)]; [right; now left|reflexivity|]. destruct (HU (d_xs d')) as [->|(ss & m' & Ha' & Hz')]; [right; right; now left|destruct Ha as (i & dt & ->); reflexivity|].
        pose proof (HW _ _ Ha Ha') as HE. destruct Ha as (i & dt & ->), Ha' as (i' & dt' & ->). destruct Hz as (r & ->), Hz' as (r' & ->). injection HE as ->. cbn [same_rows np_shape bind nth]. now rewrite Nat.eqb_refl. }
      rewrite HR. cbn [bind]. rewrite (proj2 (validate_views_ok _)); [|destruct HV as [->|(items & -> & H & _)]; [now left|right; now exists items]]. cbn [bind]. destruct HM as [->|(items & ->)]; reflexivity.
    + assert (HO : forall v, In v [d_xu d'; d_xw d'; d_xs d'] -> optionally require_numpy v = Ok v).
      { intros v Hv. apply optionally_ok. destruct (HU v Hv) as [->|(s & m & Ha & _)]; [left; now split|right]. split; [exact (proj2 (array_shape _ _ Ha))|]. apply require_numpy_ok. split; [reflexivity|now exists s]. }
      rewrite (proj2 (require_numpy_ok (d_xl d') (d_xl d'))); [|split; [reflexivity|now exists sl]]. cbn [bind]. rewrite (proj2 (require_numpy_ok (d_yl d') (d_yl d'))); [|split; [reflexivity|now exists sy]]. cbn [bind].
      rewrite (HO (d_xu d')); [|now left]. cbn [bind]. rewrite (HO (d_xw d')); [|right; now left]. cbn [bind]. rewrite (HO (d_xs d')); [|right; right; now left]. cbn [bind].
      rewrite (proj2 (require_views_ok require_numpy (fun v => exists s, array v s) _ (d_views d') require_numpy_ok)); [|split; [reflexivity|exact HV]]. cbn [bind]. destruct d'; reflexivity.
Qed.
