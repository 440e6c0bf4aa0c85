(* Proofs about resource limits and seed sweeps. *)
From Coq Require Import String.
From Coq Require Import ZifyBool ZifyNat.
From Verif Require Import Prelude FloatModel PyValue DecString ListFacts HpoModel HpoSpec HpoProofs LimitsModel LimitsSpec.
Local Open Scope string_scope.
Local Open Scope Z_scope.
Local Open Scope list_scope.

Lemma nodup_app {A} (l1 l2 : list A) : NoDup l1 -> NoDup l2 -> (forall x, In x l1 -> In x l2 -> False) -> NoDup (l1 ++ l2).
Proof.
  induction l1 as [|a l1 IH]; cbn; intros N1 N2 D; [exact N2|]. inversion N1; subst. constructor.
  - rewrite in_app_iff. intros [H|H]; [contradiction|]. eapply D; [left; reflexivity|exact H].
  - apply IH; auto. intros x H1' H2'. eapply D; [right; exact H1'|exact H2'].
Qed.
Lemma nth_error_ext {A} : forall l l' : list A, (forall m, nth_error l m = nth_error l' m) -> l = l'.
Proof.
  induction l as [|a l IH]; intros [|b l'] H; [reflexivity|specialize (H 0%nat); discriminate|specialize (H 0%nat); discriminate|].
  f_equal; [specialize (H 0%nat); cbn in H; congruence|]. apply IH. intros m. apply (H (S m)).
Qed.
Lemma same_refl a : same a a.
Proof. destruct a as [[]|]; cbn; auto. Qed.
Lemma same_trans a b c : same a b -> same b c -> same a c.
Proof.
  destruct a as [[]|], b as [[]|]; cbn; try contradiction; try congruence; intros H; destruct c as [[]|]; cbn; try contradiction; try congruence; auto.
Qed.
Lemma same_int z b : same (Some (PInt z)) b -> b = Some (PInt z).
Proof. destruct b as [[]|]; cbn; try contradiction; congruence. Qed.
Lemma same_int_r z a : same a (Some (PInt z)) -> a = Some (PInt z).
Proof. destruct a as [[]|]; cbn; try contradiction; congruence. Qed.
Lemma same_none_r a : same a None -> a = None.
Proof. destruct a as [[]|]; cbn; try contradiction; auto. Qed.
Lemma stands_container o v z : stands_for o v z -> (forall d, v <> PDict d) /\ (forall l, v <> PList l).
Proof. intros (_ & _ & H). split; intros x ->; cbn in H; discriminate. Qed.
(* a scalar is left as it was *)
Lemma same_number o v z b : stands_for o v z -> same (Some v) b -> b = Some v.
Proof.
  intros H S. destruct (stands_container _ _ _ H) as (A & B).
  destruct v, b as [[]|]; cbn in S; try contradiction; try congruence; first [exfalso; eapply A; reflexivity|exfalso; eapply B; reflexivity].
Qed.
Lemma same_number_r o v z a : stands_for o v z -> same a (Some v) -> a = Some v.
Proof.
  intros H S. destruct (stands_container _ _ _ H) as (A & B).
  destruct v, a as [[]|]; cbn in S; try contradiction; try congruence; first [exfalso; eapply A; reflexivity|exfalso; eapply B; reflexivity].
Qed.

Lemma coerce_stands o v z : coerce_int o v = Some z <-> stands_for o v z.
Proof.
  unfold coerce_int, stands_for. split.
  - destruct v; try discriminate; destruct (py_int o _) eqn:E; try discriminate; intros X; injection X as <-;
      (split; [discriminate|split; [discriminate|reflexivity]]).
  - intros (A & B & E). destruct v; try (rewrite E; reflexivity); [contradiction|exfalso; eapply B; reflexivity].
Qed.

Section Lim.
Variable o : Oracle.
Notation obeys := (obeys o). Notation limited := (limited o).
Definition gov := place -> Z -> bool -> Prop.

(* v became v' at the place at_, under the limits G, and ch lists the changes *)
Record Lim (at_ : place) (G : gov) (v v' : pyval) (ch : list change) : Prop := {
  l_gov : forall q c s, G (at_ ++ q) c s -> obeys c s (value_at v q) (value_at v' q);
  l_frame : forall q, (forall c s, ~ G (at_ ++ q) c s) -> same (value_at v q) (value_at v' q);
  l_ch1 : forall P t, In (P, t) ch -> exists q c s, P = at_ ++ q /\ G P c s /\
            limited c (value_at v q) (value_at v' q) /\ message o P (value_at v q) c t;
  l_ch2 : forall q c s, G (at_ ++ q) c s -> limited c (value_at v q) (value_at v' q) -> In (at_ ++ q) (map fst ch);
  l_nd : NoDup (map fst ch);
  l_id : ch = [] -> v' = v
}.

(* nothing to limit: every governed setting is absent or obeys already *)
Lemma Lim_refl at_ (G : gov) v :
  (forall q c s, G (at_ ++ q) c s -> forall w z, value_at v q = Some w -> stands_for o w z -> z <= c) ->
  Lim at_ G v v [].
Proof.
  intros H. constructor.
  - intros q c s g. right. split; [apply same_refl|]. intros w z. apply (H q c s g).
  - intros q _. apply same_refl.
  - intros P t [].
  - intros q c s g (E & [N|(w & z & Ew & Sw & L)]); [rewrite N in E; discriminate|].
    specialize (H q c s g w z Ew Sw). lia.
  - constructor.
  - reflexivity.
Qed.
Lemma Lim_none at_ (G : gov) v : (forall q c s, G (at_ ++ q) c s -> value_at v q = None) -> Lim at_ G v v [].
Proof. intros H. apply Lim_refl. intros q c s g w z E. rewrite (H q c s g) in E. discriminate. Qed.

Lemma Lim_trans at_ (G1 G2 : gov) v v1 v2 c1 c2 :
  Lim at_ G1 v v1 c1 -> Lim at_ G2 v1 v2 c2 -> (forall P a b a' b', G1 P a b -> G2 P a' b' -> False) ->
  Lim at_ (fun P c s => G1 P c s \/ G2 P c s) v v2 (c1 ++ c2).
Proof.
  intros A B D. constructor.
  - intros q c s [g|g].
    + assert (F : same (value_at v1 q) (value_at v2 q)) by (apply (l_frame _ _ _ _ _ B); intros ? ? g'; eapply D; eauto).
      destruct (l_gov _ _ _ _ _ A q c s g) as [((E & W) & X)|(S & X)].
      * left. rewrite E in F. split; [|exact X]. split; [apply same_int; exact F|exact W].
      * right. split; [eapply same_trans; eauto|exact X].
    + assert (F : same (value_at v q) (value_at v1 q)) by (apply (l_frame _ _ _ _ _ A); intros ? ? g'; eapply D; eauto).
      destruct (l_gov _ _ _ _ _ B q c s g) as [((E & W) & X)|(S & X)].
      * left. split.
        -- split; [exact E|]. destruct W as [W|(w & z & Ew & Sw & L)].
           ++ left. rewrite W in F. apply same_none_r, F.
           ++ right. exists w, z. rewrite Ew in F. split; [exact (same_number_r _ _ _ _ Sw F)|auto].
        -- intros N. apply X. rewrite N in F. destruct (value_at v1 q) as [[]|]; cbn in F; try contradiction; reflexivity.
      * right. split; [eapply same_trans; eauto|]. intros w z Ew Sw. apply (X w z); [|exact Sw].
        rewrite Ew in F. exact (same_number _ _ _ _ Sw F).
  - intros q N. eapply same_trans; [apply (l_frame _ _ _ _ _ A)|apply (l_frame _ _ _ _ _ B)]; intros c s g; apply (N c s); auto.
  - intros P t HI. apply in_app_iff in HI as [HI|HI].
    + destruct (l_ch1 _ _ _ _ _ A P t HI) as (q & c & s & -> & g & (E & W) & M). exists q, c, s.
      split; [reflexivity|]. split; [auto|]. split; [|exact M]. split; [|exact W].
      assert (F : same (value_at v1 q) (value_at v2 q)) by (apply (l_frame _ _ _ _ _ B); intros ? ? g'; eapply D; eauto).
      rewrite E in F. apply same_int; exact F.
    + destruct (l_ch1 _ _ _ _ _ B P t HI) as (q & c & s & -> & g & (E & W) & M). exists q, c, s.
      assert (F : same (value_at v q) (value_at v1 q)) by (apply (l_frame _ _ _ _ _ A); intros ? ? g'; eapply D; eauto).
      split; [reflexivity|]. split; [auto|].
      assert (EQ : value_at v q = value_at v1 q).
      { destruct W as [W|(w & z & Ew & Sw & L)].
        - rewrite W in F. rewrite W. apply same_none_r, F.
        - rewrite Ew in F. rewrite Ew. exact (same_number_r _ _ _ _ Sw F). }
      rewrite EQ. split; [split; [exact E|exact W]|exact M].
  - intros q c s g (E & W). rewrite map_app, in_app_iff. destruct g as [g|g].
    + left. apply (l_ch2 _ _ _ _ _ A q c s g). split; [|exact W].
      assert (F : same (value_at v1 q) (value_at v2 q)) by (apply (l_frame _ _ _ _ _ B); intros ? ? g'; eapply D; eauto).
      rewrite E in F. apply same_int_r; exact F.
    + right. apply (l_ch2 _ _ _ _ _ B q c s g). split; [exact E|].
      assert (F : same (value_at v q) (value_at v1 q)) by (apply (l_frame _ _ _ _ _ A); intros ? ? g'; eapply D; eauto).
      destruct W as [W|(w & z & Ew & Sw & L)].
      * left. rewrite W in F. destruct (value_at v1 q) as [[]|]; cbn in F; try contradiction; reflexivity.
      * right. exists w, z. rewrite Ew in F. split; [exact (same_number _ _ _ _ Sw F)|auto].
  - rewrite map_app. apply nodup_app; [exact (l_nd _ _ _ _ _ A)|exact (l_nd _ _ _ _ _ B)|].
    intros P H1 H2. apply in_map_iff in H1 as ((P1 & t1) & E1 & H1). apply in_map_iff in H2 as ((P2 & t2) & E2 & H2).
    cbn in E1, E2. subst P1 P2.
    destruct (l_ch1 _ _ _ _ _ A P t1 H1) as (q & c & s & -> & g & _). destruct (l_ch1 _ _ _ _ _ B _ t2 H2) as (q' & c' & s' & EP & g' & _).
    eapply D; eauto.
  - intros E. apply app_eq_nil in E as (E1 & E2). rewrite (l_id _ _ _ _ _ B E2). apply (l_id _ _ _ _ _ A E1).
Qed.

Lemma Lim_ext at_ (G G' : gov) v v' ch : (forall q c s, G (at_ ++ q) c s <-> G' (at_ ++ q) c s) -> Lim at_ G v v' ch -> Lim at_ G' v v' ch.
Proof.
  intros H A. constructor.
  - intros q c s g. apply (l_gov _ _ _ _ _ A), H, g.
  - intros q N. apply (l_frame _ _ _ _ _ A). intros c s g. apply (N c s), H, g.
  - intros P t HI. destruct (l_ch1 _ _ _ _ _ A P t HI) as (q & c & s & -> & g & R). exists q, c, s. split; [reflexivity|]. split; [apply H, g|exact R].
  - intros q c s g. apply (l_ch2 _ _ _ _ _ A q c s), H, g.
  - apply (l_nd _ _ _ _ _ A).
  - apply (l_id _ _ _ _ _ A).
Qed.

Lemma value_at_dset d k w k' q : value_at (PDict (dset d k w)) (K k' :: q) = if String.eqb k k' then value_at w q else value_at (PDict d) (K k' :: q).
Proof. cbn. rewrite lookup_dset. destruct (String.eqb k k'); reflexivity. Qed.

(* the change is inside one entry of a mapping *)
Lemma Lim_entry at_ (G : gov) d k v v' ch : lookup d k = Some v -> Lim (at_ ++ [K k]) G v v' ch ->
  (forall q c s, G (at_ ++ q) c s -> exists r, q = K k :: r) ->
  Lim at_ G (PDict d) (PDict (dset d k v')) ch.
Proof.
  intros Lk A H.
  assert (AP : forall q, at_ ++ K k :: q = (at_ ++ [K k]) ++ q) by (intros; rewrite <- app_assoc; reflexivity).
  assert (V : forall q, value_at (PDict d) (K k :: q) = value_at v q) by (intros; cbn; rewrite Lk; reflexivity).
  assert (V' : forall q, value_at (PDict (dset d k v')) (K k :: q) = value_at v' q) by (intros; rewrite value_at_dset, String.eqb_refl; reflexivity).
  constructor.
  - intros q c s g. destruct (H q c s g) as (r & ->). rewrite V, V'. apply (l_gov _ _ _ _ _ A). rewrite <- AP. exact g.
  - intros [|[k'|i] q] N; [exact Logic.I| |exact Logic.I]. destruct (String.eqb_spec k k') as [->|NE].
    + rewrite V, V'. apply (l_frame _ _ _ _ _ A). intros c s g. apply (N c s). rewrite AP. exact g.
    + rewrite value_at_dset. destruct (String.eqb_spec k k'); [contradiction|]. apply same_refl.
  - intros P t HI. destruct (l_ch1 _ _ _ _ _ A P t HI) as (q & c & s & -> & R). exists (K k :: q), c, s. rewrite V, V'. split; [symmetry; apply AP|exact R].
  - intros q c s g. destruct (H q c s g) as (r & ->). rewrite V, V'. rewrite (AP r) in *. apply (l_ch2 _ _ _ _ _ A r c s g).
  - apply (l_nd _ _ _ _ _ A).
  - intros E. rewrite (l_id _ _ _ _ _ A E), (dset_same _ _ _ Lk). reflexivity.
Qed.

(* the changes are inside the elements of a list *)
Lemma Lim_list (G : gov) : forall at_ (vs vs' : list pyval) (chs : list (list change)) n,
  length vs' = length vs -> length chs = length vs ->
  (forall i v v' ch, nth_error vs i = Some v -> nth_error vs' i = Some v' -> nth_error chs i = Some ch ->
     Lim (at_ ++ [I (n + i)]) G v v' ch) ->
  NoDup (map fst (concat chs)) /\
  (forall P t, In (P, t) (concat chs) -> exists i q, (i < length vs)%nat /\ P = at_ ++ I (n + i) :: q).
Proof.
  intros at_ vs. induction vs as [|v vs IH]; intros vs' chs n L1 L2 H.
  - destruct chs; [|discriminate]. cbn. split; [constructor|intros ? ? []].
  - destruct vs' as [|v' vs']; [discriminate|]. destruct chs as [|ch chs]; [discriminate|].
    injection L1 as L1. injection L2 as L2.
    pose proof (H 0%nat v v' ch eq_refl eq_refl eq_refl) as A. rewrite Nat.add_0_r in A.
    destruct (IH vs' chs (S n) L1 L2) as (N & W).
    { intros i w w' c E1 E2 E3. replace (S n + i)%nat with (n + S i)%nat by lia. apply (H (S i)); assumption. }
    cbn. split.
    + rewrite map_app. apply nodup_app; [exact (l_nd _ _ _ _ _ A)|exact N|].
      intros P H1 H2. apply in_map_iff in H1 as ((P1 & t1) & E1 & H1). apply in_map_iff in H2 as ((P2 & t2) & E2 & H2).
      cbn in E1, E2. subst P1 P2. destruct (l_ch1 _ _ _ _ _ A P t1 H1) as (q & c & s & EP & _). destruct (W P t2 H2) as (i & q' & _ & EP').
      rewrite EP, <- app_assoc in EP'. apply app_inv_head in EP'. injection EP' as E _. lia.
    + intros P t HI. apply in_app_iff in HI as [HI|HI].
      * destruct (l_ch1 _ _ _ _ _ A P t HI) as (q & c & s & EP & _). exists 0%nat, q. split; [lia|]. rewrite Nat.add_0_r, EP, <- app_assoc. reflexivity.
      * destruct (W P t HI) as (i & q & B & E). exists (S i), q. split; [lia|]. rewrite E. do 3 f_equal. lia.
Qed.
Lemma Lim_elements at_ (G : gov) (vs vs' : list pyval) (chs : list (list change)) :
  length vs' = length vs -> length chs = length vs ->
  (forall i v v' ch, nth_error vs i = Some v -> nth_error vs' i = Some v' -> nth_error chs i = Some ch ->
     Lim (at_ ++ [I i]) G v v' ch) ->
  (forall q c s, G (at_ ++ q) c s -> exists i r, q = I i :: r) ->
  Lim at_ G (PList vs) (PList vs') (concat chs).
Proof.
  intros L1 L2 H HG.
  destruct (Lim_list G at_ vs vs' chs 0 L1 L2) as (ND & WH). { intros; apply H; assumption. }
  assert (AP : forall i q, at_ ++ I i :: q = (at_ ++ [I i]) ++ q) by (intros; rewrite <- app_assoc; reflexivity).
  assert (GET : forall i v, nth_error vs i = Some v -> exists v' ch, nth_error vs' i = Some v' /\ nth_error chs i = Some ch /\ Lim (at_ ++ [I i]) G v v' ch).
  { intros i v E. assert (B : (i < length vs)%nat) by (apply nth_error_Some; rewrite E; discriminate).
    destruct (nth_error vs' i) as [v'|] eqn:E'; [|apply nth_error_None in E'; lia].
    destruct (nth_error chs i) as [ch|] eqn:E2; [|apply nth_error_None in E2; lia]. eauto 10. }
  assert (GONE : forall i, nth_error vs i = None -> nth_error vs' i = None).
  { intros i E. apply nth_error_None. apply nth_error_None in E. lia. }
  constructor.
  - intros q c s g. destruct (HG q c s g) as (i & r & ->). cbn. destruct (nth_error vs i) as [v|] eqn:E.
    + destruct (GET i v E) as (v' & ch & E' & Ec & A). rewrite E'. apply (l_gov _ _ _ _ _ A). rewrite <- AP. exact g.
    + rewrite (GONE i E). right. split; [exact Logic.I|discriminate].
  - intros [|[k'|i] q] N; [cbn; symmetry; exact L1|exact Logic.I|]. cbn. destruct (nth_error vs i) as [v|] eqn:E.
    + destruct (GET i v E) as (v' & ch & E' & Ec & A). rewrite E'. apply (l_frame _ _ _ _ _ A). intros c s g. apply (N c s). rewrite AP. exact g.
    + rewrite (GONE i E). exact Logic.I.
  - intros P t HI. apply in_concat in HI as (ch & Hc & HI). apply In_nth_error in Hc as (i & Ec).
    assert (B : (i < length vs)%nat) by (rewrite <- L2; apply nth_error_Some; rewrite Ec; discriminate).
    destruct (nth_error vs i) as [v|] eqn:E; [|apply nth_error_None in E; lia].
    destruct (GET i v E) as (v' & ch' & E' & Ec' & A). rewrite Ec in Ec'. injection Ec' as <-.
    destruct (l_ch1 _ _ _ _ _ A P t HI) as (q & c & s & -> & R). exists (I i :: q), c, s. split; [symmetry; apply AP|]. cbn. rewrite E, E'. exact R.
  - intros q c s g W. destruct (HG q c s g) as (i & r & ->). cbn in W. destruct (nth_error vs i) as [v|] eqn:E.
    + destruct (GET i v E) as (v' & ch & E' & Ec & A). rewrite E' in W. rewrite (AP i r) in *.
      pose proof (l_ch2 _ _ _ _ _ A r c s g W) as X. apply in_map_iff in X as (x & Ex & HI). apply in_map_iff. exists x. split; [exact Ex|].
      apply in_concat. exists ch. split; [eapply nth_error_In; eauto|exact HI].
    + rewrite (GONE i E) in W. destruct W as (W & _). discriminate.
  - exact ND.
  - intros E. f_equal. clear ND WH. apply nth_error_ext. intros i. destruct (nth_error vs i) as [v|] eqn:Ei; [|apply GONE; exact Ei].
    destruct (GET i v Ei) as (v' & ch & E' & Ec & A). rewrite E'. f_equal. apply (l_id _ _ _ _ _ A).
    destruct ch as [|x ch]; [reflexivity|]. exfalso. assert (HI : In x (concat chs)) by (apply in_concat; exists (x :: ch); split; [eapply nth_error_In; eauto|left; reflexivity]).
    rewrite E in HI. destruct HI.
Qed.

(* ------------------------------------------------------------------ the setting itself *)
Lemma clamp_key_lim at_ (G : gov) container key limit path set :
  (forall q c s, G (at_ ++ q) c s <-> q = [K key] /\ limit = Some c /\ s = set) ->
  Lim at_ G (PDict container) (PDict (fst (clamp_key o container key limit path at_ set))) (snd (clamp_key o container key limit path at_ set)).
Proof.
  intros HG. unfold clamp_key. destruct limit as [lim|].
  2:{ cbn [fst snd]; apply Lim_none. intros q c s g. apply HG in g as (_ & X & _). discriminate. }
  assert (V : value_at (PDict container) [K key] = lookup container key) by (cbn; destruct (lookup container key); reflexivity).
  assert (STEP : forall old t, lookup container key = old -> (old = None -> set = true) ->
     message o (at_ ++ [K key]) old lim t ->
     (forall w, old = Some w -> exists z, stands_for o w z /\ lim < z) ->
     Lim at_ G (PDict container) (PDict (dset container key (PInt lim))) [(at_ ++ [K key], t)]).
  { intros old t Eo Hs M Hn.
    assert (V' : value_at (PDict (dset container key (PInt lim))) [K key] = Some (PInt lim)) by (rewrite value_at_dset, String.eqb_refl; reflexivity).
    assert (LM : limited lim old (Some (PInt lim))).
    { split; [reflexivity|]. destruct old as [w|]; [|left; reflexivity]. destruct (Hn w eq_refl) as (z & Sw & B). right. eauto. }
    constructor.
    - intros q c s g. apply HG in g as (-> & E & ->). injection E as <-. rewrite V, V', Eo. left. split; [exact LM|exact Hs].
    - intros [|[k'|i] q] N; [exact Logic.I| |exact Logic.I].
      rewrite value_at_dset. destruct (String.eqb_spec key k') as [->|NE]; [|apply same_refl].
      destruct q as [|x q].
      + exfalso. apply (N lim set). apply HG. auto.
      + replace (value_at (PInt lim) (x :: q)) with (@None pyval) by (destruct x; reflexivity).
        cbn. rewrite Eo. destruct old as [w|]; [|exact Logic.I]. destruct (Hn w eq_refl) as (z & Sw & _).
        destruct (stands_container _ _ _ Sw) as (A & B).
        destruct w; cbn; try (destruct x; exact Logic.I); [exfalso; eapply B; reflexivity|exfalso; eapply A; reflexivity].
    - intros P t' [E|[]]. injection E as <- <-. exists [K key], lim, set. split; [reflexivity|]. split; [apply HG; auto|].
      rewrite V, V', Eo. split; [exact LM|exact M].
    - intros q c s g _. apply HG in g as (-> & _). left. reflexivity.
    - repeat constructor. intros [].
    - discriminate. }
  destruct (lookup container key) as [old|] eqn:Eo.
  - destruct (coerce_int o old) as [cur|] eqn:Ec.
    + assert (Sw := proj1 (coerce_stands o old cur) Ec).
      destruct (Z.eqb_spec (Z.min cur lim) cur) as [E|E].
      * cbn [fst snd]; apply Lim_refl. intros q c s g w z Ew Sz. apply HG in g as (-> & X & _). injection X as <-. rewrite V in Ew. injection Ew as <-.
        apply coerce_stands in Sz. rewrite Ec in Sz. injection Sz as <-. lia.
      * replace (Z.min cur lim) with lim by lia. cbn [fst snd].
        apply (STEP (Some old)); [reflexivity|discriminate| |].
        -- exists path, at_, key. split; [reflexivity|]. reflexivity.
        -- intros w X. injection X as <-. exists cur. split; [exact Sw|lia].
    + cbn [fst snd]; apply Lim_refl. intros q c s g w z Ew Sz. apply HG in g as (-> & X & _). rewrite V in Ew. injection Ew as <-.
      apply coerce_stands in Sz. rewrite Ec in Sz. discriminate.
  - destruct set eqn:Es.
    + cbn [fst snd]. apply (STEP None); [reflexivity|reflexivity| |discriminate]. exists path, at_, key. split; reflexivity.
    + cbn [fst snd]; apply Lim_none. intros q c s g. apply HG in g as (-> & _). rewrite V. reflexivity.
Qed.

(* ------------------------------------------------------------------ combinators *)
Definition only (p : place) (limit : option Z) (set : bool) : gov := fun P c s => P = p /\ limit = Some c /\ s = set.
Lemma clamp_only at_ container key limit path set :
  Lim at_ (only (at_ ++ [K key]) limit set) (PDict container)
    (PDict (fst (clamp_key o container key limit path at_ set))) (snd (clamp_key o container key limit path at_ set)).
Proof.
  apply clamp_key_lim. intros q c s. unfold only. split.
  - intros (E & X). apply app_inv_head in E. auto.
  - intros (-> & X). auto.
Qed.
Lemma on_dict_lim at_ (G : gov) d k f :
  (forall c, Lim (at_ ++ [K k]) G (PDict c) (PDict (fst (f c))) (snd (f c))) ->
  (forall q c s, G (at_ ++ q) c s -> exists k2 r, q = K k :: K k2 :: r) ->
  Lim at_ G (PDict d) (PDict (fst (on_dict d k f))) (snd (on_dict d k f)).
Proof.
  intros A H. unfold on_dict.
  assert (NO : (forall x, lookup d k <> Some (PDict x)) -> Lim at_ G (PDict d) (PDict d) []).
  { intros N. apply Lim_none. intros q c s g. destruct (H q c s g) as (k2 & r & ->). cbn.
    destruct (lookup d k) as [[]|]; try reflexivity. exfalso. eapply N. reflexivity. }
  destruct (lookup d k) as [w|] eqn:E; [|apply NO; discriminate].
  destruct w; try (apply NO; discriminate).
  destruct (f d0) as (c', ch) eqn:Ef. cbn [fst snd].
  apply (Lim_entry at_ G d k (PDict d0)); [exact E| |].
  - specialize (A d0). rewrite Ef in A. exact A.
  - intros q c s g. destruct (H q c s g) as (k2 & r & ->). eauto.
Qed.
Lemma then_lim at_ (G1 G2 : gov) f g d :
  (forall c, Lim at_ G1 (PDict c) (PDict (fst (f c))) (snd (f c))) ->
  (forall c, Lim at_ G2 (PDict c) (PDict (fst (g c))) (snd (g c))) ->
  (forall P a b a' b', G1 P a b -> G2 P a' b' -> False) ->
  Lim at_ (fun P c s => G1 P c s \/ G2 P c s) (PDict d) (PDict (fst (then_ f g d))) (snd (then_ f g d)).
Proof.
  intros A B D. unfold then_. specialize (A d). destruct (f d) as (d1, c1). cbn [fst snd] in A.
  specialize (B d1). destruct (g d1) as (d2, c2). cbn [fst snd] in *. eapply Lim_trans; eauto.
Qed.

Definition steps_of (base : place) (limit : option Z) : gov := fun P c s =>
  exists i, P = base ++ [K "steps"; I i; K "params"; K "batch_size"] /\ limit = Some c /\ s = false.

Lemma clamp_steps_cons s r idx limit path at_ :
  clamp_steps o (s :: r) idx limit path at_ =
  (let one := match s with
        | PDict step =>
            match lookup step "params" with
            | Some (PDict params) =>
                let sid := first_true o (get_or step "id" PNone) (get_or step "step_id" PNone) idx in
                let '(p', c) := clamp_key o params "batch_size" limit
                                  (path ++ ".steps[" ++ sid ++ "].params")%string (at_ ++ [I idx; K "params"]) false in
                (PDict (dset step "params" (PDict p')), c)
            | _ => (s, [])
            end
        | _ => (s, [])
        end in
  (fst one :: fst (clamp_steps o r (S idx) limit path at_), snd one ++ snd (clamp_steps o r (S idx) limit path at_))).
Proof.
  cbn [clamp_steps]. destruct (clamp_steps o r (S idx) limit path at_) as (r', cs).
  match goal with |- (let '(_, _) := ?x in _) = _ => destruct x as (s', c) end. reflexivity.
Qed.

Lemma clamp_steps_spec (G : gov) limit path at_ :
  (forall i q c s, G (at_ ++ I i :: q) c s <-> q = [K "params"; K "batch_size"] /\ limit = Some c /\ s = false) ->
  forall steps idx, exists chs, snd (clamp_steps o steps idx limit path at_) = concat chs /\
    length (fst (clamp_steps o steps idx limit path at_)) = length steps /\ length chs = length steps /\
    forall i v v' ch, nth_error steps i = Some v -> nth_error (fst (clamp_steps o steps idx limit path at_)) i = Some v' ->
      nth_error chs i = Some ch -> Lim (at_ ++ [I (idx + i)]) G v v' ch.
Proof.
  intros HG. induction steps as [|s r IH]; intros idx.
  - exists []. cbn. split; [reflexivity|]. split; [reflexivity|]. split; [reflexivity|]. intros [|i]; discriminate.
  - rewrite clamp_steps_cons. cbv zeta.
    assert (ONE : forall one, one = (match s with
        | PDict step =>
            match lookup step "params" with
            | Some (PDict params) =>
                let sid := first_true o (get_or step "id" PNone) (get_or step "step_id" PNone) idx in
                let '(p', c) := clamp_key o params "batch_size" limit
                                  (path ++ ".steps[" ++ sid ++ "].params")%string (at_ ++ [I idx; K "params"]) false in
                (PDict (dset step "params" (PDict p')), c)
            | _ => (s, [])
            end
        | _ => (s, [])
        end) -> Lim (at_ ++ [I idx]) G s (fst one) (snd one)).
    { assert (HG' : forall q c s0, G ((at_ ++ [I idx]) ++ q) c s0 <-> q = [K "params"; K "batch_size"] /\ limit = Some c /\ s0 = false).
      { intros q c s0. rewrite <- app_assoc. apply (HG idx q c s0). }
      intros one ->. destruct s; try (apply Lim_none; intros q c s0 g; apply HG' in g as (-> & _); reflexivity).
      assert (NO : (forall x, lookup d "params" <> Some (PDict x)) -> Lim (at_ ++ [I idx]) G (PDict d) (PDict d) []).
      { intros N. apply Lim_none. intros q c s0 g. apply HG' in g as (-> & _). cbn.
        destruct (lookup d "params") as [[]|]; try reflexivity. exfalso. eapply N. reflexivity. }
      destruct (lookup d "params") as [w|] eqn:E; [|apply NO; discriminate].
      destruct w; try (apply NO; discriminate). cbv zeta.
      pose proof (clamp_key_lim (at_ ++ [I idx; K "params"]) G d0 "batch_size" limit
         (path ++ ".steps[" ++ first_true o (get_or d "id" PNone) (get_or d "step_id" PNone) idx ++ "].params")%string false) as A.
      destruct (clamp_key o d0 "batch_size" limit _ _ false) as (p', c). cbn [fst snd] in *.
      apply (Lim_entry _ G d "params" (PDict d0)); [exact E| |].
      - rewrite <- app_assoc. apply A. intros q c0 s0. rewrite <- app_assoc. etransitivity; [apply (HG idx)|].
        split; [intros (X & Y); injection X as ->; auto|intros (-> & Y); auto].
      - intros q c0 s0 g. apply HG' in g as (-> & _). eauto. }
    destruct (IH (S idx)) as (chs & E1 & E2 & E3 & E4).
    match goal with |- context [fst ?x :: _] => specialize (ONE x eq_refl); set (one := x) in * end.
    exists (snd one :: chs). cbn [fst snd concat length]. rewrite E1. split; [reflexivity|]. split; [f_equal; exact E2|]. split; [f_equal; exact E3|].
    intros [|i] v v' ch H1 H2 H3.
    + cbn in H1, H2, H3. injection H1 as <-. injection H2 as <-. injection H3 as <-. rewrite Nat.add_0_r. exact ONE.
    + cbn in H1, H2, H3. replace (idx + S i)%nat with (S idx + i)%nat by lia. eapply E4; eauto.
Qed.

Lemma clamp_preprocess_lim at_ plan limit path :
  Lim at_ (steps_of at_ limit) (PDict plan) (PDict (fst (clamp_preprocess_steps o plan limit path at_)))
    (snd (clamp_preprocess_steps o plan limit path at_)).
Proof.
  unfold clamp_preprocess_steps. destruct limit as [lim|].
  2:{ apply Lim_none. intros q c s (i & _ & X & _). discriminate. }
  assert (NO : (forall x, lookup plan "steps" <> Some (PList x)) -> Lim at_ (steps_of at_ (Some lim)) (PDict plan) (PDict plan) []).
  { intros N. apply Lim_none. intros q c s (i & E & _). apply app_inv_head in E. subst q. cbn.
    destruct (lookup plan "steps") as [[]|]; try reflexivity. exfalso. eapply N. reflexivity. }
  destruct (lookup plan "steps") as [w|] eqn:E; [|apply NO; discriminate].
  destruct w; try (apply NO; discriminate).
  destruct (clamp_steps_spec (steps_of at_ (Some lim)) (Some lim) path (at_ ++ [K "steps"])) with (steps := l) (idx := 0%nat) as (chs & E1 & E2 & E3 & E4).
  { intros i q c s. unfold steps_of. split.
    - intros (j & X & Y). rewrite <- app_assoc in X. apply app_inv_head in X. injection X as -> ->. auto.
    - intros (-> & Y). exists i. rewrite <- app_assoc. auto. }
  destruct (clamp_steps o l 0 (Some lim) path (at_ ++ [K "steps"])) as (s', c). cbn [fst snd] in *. subst c.
  apply (Lim_entry _ _ plan "steps" (PList l)); [exact E| |].
  - apply Lim_elements; [exact E2|exact E3|exact E4|]. intros q c s (j & X & _). rewrite <- app_assoc in X. apply app_inv_head in X. injection X as ->. eauto.
  - intros q c s (j & X & _). apply app_inv_head in X. subst q. eauto.
Qed.

Ltac clamp := cbv beta; match goal with |- Lim _ _ _ (PDict (fst (clamp_key _ ?c ?k ?lim ?path ?at' ?set))) _ => exact (clamp_only at' c k lim path set) end.
(* ------------------------------------------------------------------ the sections *)
Variable l : ResolvedLimits.
Definition G_preprocess : gov := steps_of [K "preprocess"; K "plan"] (rl_preprocess_batch l).
Lemma preprocess_lim d : Lim [K "preprocess"] G_preprocess (PDict d) (PDict (fst (limit_preprocess o l d))) (snd (limit_preprocess o l d)).
Proof.
  unfold limit_preprocess. apply on_dict_lim.
  - intros c. apply clamp_preprocess_lim.
  - intros q c s (i & E & _). cbn in E. injection E as ->. eauto.
Qed.
Definition G_graph : gov := only [K "graph"; K "spec"; K "chunk_size"] (rl_graph_chunk l) true.
Lemma graph_lim d : Lim [K "graph"] G_graph (PDict d) (PDict (fst (limit_graph o l d))) (snd (limit_graph o l d)).
Proof.
  unfold limit_graph. apply on_dict_lim.
  - intros c. clamp.
  - intros q c s (E & _). cbn in E. injection E as ->. eauto.
Qed.
Definition G_params : gov := fun P c s => only [K "method"; K "params"; K "batch_size"] (rl_method_batch l) false P c s \/
  (only [K "method"; K "params"; K "sup_batch_size"] (rl_method_sup_batch l) false P c s \/
   only [K "method"; K "params"; K "classifier_params"; K "batch_size"] (rl_method_batch l) false P c s).
Definition G_model : gov := only [K "method"; K "model"; K "classifier_params"; K "batch_size"] (rl_method_batch l) false.
Lemma method_lim d : Lim [K "method"] (fun P c s => G_params P c s \/ G_model P c s) (PDict d) (PDict (fst (limit_method o l d))) (snd (limit_method o l d)).
Proof.
  unfold limit_method. apply then_lim.
  - intros m. apply on_dict_lim.
    + intros p. apply then_lim; [intros; clamp| |].
      * intros p2. apply then_lim; [intros; clamp| |].
        -- intros p3. apply on_dict_lim; [intros; clamp|]. intros q c s (E & _). cbn in E. injection E as ->. eauto.
        -- intros P a b a' b' (-> & _) (E & _). discriminate.
      * intros P a b a' b' (-> & _) [(E & _)|(E & _)]; discriminate.
    + intros q c s [(E & _)|[(E & _)|(E & _)]]; cbn in E; injection E as ->; eauto.
  - intros m. apply on_dict_lim.
    + intros p. apply on_dict_lim; [intros; clamp|]. intros q c s (E & _). cbn in E. injection E as ->. eauto.
    + intros q c s (E & _). cbn in E. injection E as ->. eauto.
  - intros P a b a' b' [(-> & _)|[(-> & _)|(-> & _)]] (E & _); discriminate.
Qed.

Definition G_view (j : nat) : gov := steps_of [K "views"; K "plan"; K "views"; I j; K "preprocess"] (rl_preprocess_batch l).
Definition G_views : gov := fun P c s => exists j, G_view j P c s.
Lemma view_list_cons v r idx :
  limit_view_list o l (v :: r) idx =
  (let one := match v with
        | PDict view =>
            let name := first_true o (get_or view "name" PNone) PNone idx in
            let '(d, c) := on_dict view "preprocess" (fun pre =>
              clamp_preprocess_steps o pre (rl_preprocess_batch l) ("views.plan.views[" ++ name ++ "].preprocess")%string
                [K "views"; K "plan"; K "views"; I idx; K "preprocess"]) in
            (PDict d, c)
        | _ => (v, [])
        end in
   (fst one :: fst (limit_view_list o l r (S idx)), snd one ++ snd (limit_view_list o l r (S idx)))).
Proof.
  cbn [limit_view_list]. destruct (limit_view_list o l r (S idx)) as (r', cs).
  match goal with |- (let '(_, _) := ?x in _) = _ => destruct x as (s', c) end. reflexivity.
Qed.
Lemma view_list_spec : forall vs idx, exists chs, snd (limit_view_list o l vs idx) = concat chs /\
    length (fst (limit_view_list o l vs idx)) = length vs /\ length chs = length vs /\
    forall i v v' ch, nth_error vs i = Some v -> nth_error (fst (limit_view_list o l vs idx)) i = Some v' ->
      nth_error chs i = Some ch -> Lim ([K "views"; K "plan"; K "views"] ++ [I (idx + i)]) G_views v v' ch.
Proof.
  induction vs as [|v r IH]; intros idx.
  - exists []. cbn. split; [reflexivity|]. split; [reflexivity|]. split; [reflexivity|]. intros [|i]; discriminate.
  - rewrite view_list_cons. cbv zeta.
    assert (ONE : forall one, one = (match v with
        | PDict view =>
            let name := first_true o (get_or view "name" PNone) PNone idx in
            let '(d, c) := on_dict view "preprocess" (fun pre =>
              clamp_preprocess_steps o pre (rl_preprocess_batch l) ("views.plan.views[" ++ name ++ "].preprocess")%string
                [K "views"; K "plan"; K "views"; I idx; K "preprocess"]) in
            (PDict d, c)
        | _ => (v, [])
        end) -> Lim ([K "views"; K "plan"; K "views"] ++ [I idx]) G_views v (fst one) (snd one)).
    { intros one ->. destruct v; try (apply Lim_none; intros q c s9 (j & i & E & _); cbn in E; inversion E; subst; reflexivity).
      cbv zeta.
      pose proof (on_dict_lim [K "views"; K "plan"; K "views"; I idx] (G_view idx) d "preprocess" (fun pre =>
              clamp_preprocess_steps o pre (rl_preprocess_batch l) ("views.plan.views[" ++ first_true o (get_or d "name" PNone) PNone idx ++ "].preprocess")%string
                [K "views"; K "plan"; K "views"; I idx; K "preprocess"])) as A.
      destruct (on_dict d "preprocess" _) as (d', c). cbn [fst snd] in *.
      apply (Lim_ext _ (G_view idx)).
      { intros q c0 s0. unfold G_views. split; [eauto|]. intros (j & i & E & X). cbn in E. injection E as -> ->. exists i. cbn. auto. }
      apply A.
      - intros x. apply clamp_preprocess_lim.
      - intros q c0 s0 (i & E & _). cbn in E. injection E as ->. eauto. }
    destruct (IH (S idx)) as (chs & E1 & E2 & E3 & E4).
    match goal with |- context [fst ?x :: _] => specialize (ONE x eq_refl); set (one := x) in * end.
    exists (snd one :: chs). cbn [fst snd concat length]. rewrite E1. split; [reflexivity|]. split; [f_equal; exact E2|]. split; [f_equal; exact E3|].
    intros [|i] w w' ch H1 H2 H3.
    + cbn in H1, H2, H3. injection H1 as <-. injection H2 as <-. injection H3 as <-. rewrite Nat.add_0_r. exact ONE.
    + cbn in H1, H2, H3. replace (idx + S i)%nat with (S idx + i)%nat by lia. eapply E4; eauto.
Qed.
Lemma views_lim d : Lim [K "views"] G_views (PDict d) (PDict (fst (limit_views o l d))) (snd (limit_views o l d)).
Proof.
  unfold limit_views. apply on_dict_lim.
  - intros plan. cbn [app].
    assert (NO : (forall x, lookup plan "views" <> Some (PList x)) -> Lim [K "views"; K "plan"] G_views (PDict plan) (PDict plan) []).
    { intros N. apply Lim_none. intros q c s (j & i & E & _). cbn in E. injection E as ->. cbn.
      destruct (lookup plan "views") as [[]|]; try reflexivity. exfalso. eapply N. reflexivity. }
    destruct (lookup plan "views") as [w|] eqn:E; [|apply NO; discriminate].
    destruct w; try (apply NO; discriminate).
    destruct (view_list_spec l0 0) as (chs & E1 & E2 & E3 & E4).
    destruct (limit_view_list o l l0 0) as (s', c). cbn [fst snd] in *. subst c.
    apply (Lim_entry _ _ plan "views" (PList l0)); [exact E| |].
    + apply Lim_elements; [exact E2|exact E3|exact E4|]. intros q c s (j & i & X & _). cbn in X. injection X as ->. eauto.
    + intros q c s (j & i & X & _). cbn in X. injection X as ->. eauto.
  - intros q c s (j & i & X & _). cbn in X. injection X as ->. eauto.
Qed.

Definition G_dataset : gov := fun P c s => only [K "dataset"; K "options"; K "max_train_samples"] (rl_train_samples l) true P c s \/
  only [K "dataset"; K "options"; K "max_test_samples"] (rl_test_samples l) true P c s.
(* _ensure_dict(dataset, "options") *)
Definition with_options (dataset : pydict) : pydict :=
  match lookup dataset "options" with Some (PDict x) => dataset | _ => dset dataset "options" (PDict []) end.
Lemma dset_twice {A} (d : list (string * A)) k v w : dset (dset d k v) k w = dset d k w.
Proof.
  induction d as [|(k', x) d IH]; cbn; [rewrite String.eqb_refl; reflexivity|].
  destruct (String.eqb k' k) eqn:E; cbn; rewrite E; [reflexivity|]. f_equal. exact IH.
Qed.
Lemma dataset_lim d : Lim [K "dataset"] G_dataset (PDict (with_options d)) (PDict (fst (limit_dataset o l d))) (snd (limit_dataset o l d)).
Proof.
  assert (X : exists x, lookup (with_options d) "options" = Some (PDict x) /\
     limit_dataset o l d = (let '(y, c) := then_ (fun d => clamp_key o d "max_train_samples" (rl_train_samples l) "dataset.options" [K "dataset"; K "options"] true)
          (fun d => clamp_key o d "max_test_samples" (rl_test_samples l) "dataset.options" [K "dataset"; K "options"] true) x in
          (dset (with_options d) "options" (PDict y), c))).
  { unfold with_options, limit_dataset. destruct (lookup d "options") as [w|] eqn:E.
    - destruct w; try (exists []; rewrite lookup_dset, String.eqb_refl; split; [reflexivity|];
        cbv zeta; match goal with |- (let '(_, _) := ?x in _) = _ => destruct x as (y, c) end; rewrite dset_twice; reflexivity).
      exists d0. split; [exact E|]. reflexivity.
    - exists []. rewrite lookup_dset, String.eqb_refl. split; [reflexivity|].
      cbv zeta. match goal with |- (let '(_, _) := ?x in _) = _ => destruct x as (y, c) end. rewrite dset_twice. reflexivity. }
  destruct X as (x & Lx & ->).
  pose proof (then_lim [K "dataset"; K "options"] (only [K "dataset"; K "options"; K "max_train_samples"] (rl_train_samples l) true)
     (only [K "dataset"; K "options"; K "max_test_samples"] (rl_test_samples l) true)
     (fun d => clamp_key o d "max_train_samples" (rl_train_samples l) "dataset.options" [K "dataset"; K "options"] true)
     (fun d => clamp_key o d "max_test_samples" (rl_test_samples l) "dataset.options" [K "dataset"; K "options"] true) x) as A.
  destruct (then_ _ _ x) as (y, c). cbn [fst snd] in *.
  apply (Lim_entry _ _ _ "options" (PDict x)); [exact Lx| |].
  - apply A.
    + intros; clamp.
    + intros; clamp.
    + intros P a b a' b' (-> & _) (E & _). discriminate.
  - intros q c0 s0 [(E & _)|(E & _)]; cbn in E; injection E as ->; eauto.
Qed.

(* ------------------------------------------------------------------ the whole configuration *)
(* raw after _ensure_dict *)
Definition prepared (raw : pydict) : pydict :=
  match lookup raw "dataset" with Some (PDict d) => dset raw "dataset" (PDict (with_options d)) | _ => raw end.
Definition limit_rest : pydict -> pydict * list change :=
        then_ (fun d => on_dict d "preprocess" (limit_preprocess o l))
        (then_ (fun d => on_dict d "views" (limit_views o l))
        (then_ (fun d => on_dict d "method" (limit_method o l))
               (fun d => on_dict d "graph" (limit_graph o l)))).
Definition limit_all : pydict -> pydict * list change :=
        then_ (fun d => on_dict d "dataset" (limit_dataset o l)) limit_rest.
Lemma dataset_top raw : Lim [] G_dataset (PDict (prepared raw)) (PDict (fst (on_dict raw "dataset" (limit_dataset o l))))
   (snd (on_dict raw "dataset" (limit_dataset o l))).
Proof.
  unfold prepared, on_dict.
  assert (NO : (forall x, lookup raw "dataset" <> Some (PDict x)) -> Lim [] G_dataset (PDict raw) (PDict raw) []).
  { intros N. apply Lim_none. intros q c s [(E & _)|(E & _)]; cbn in E; subst q; cbn; (destruct (lookup raw "dataset") as [[]|]; try reflexivity; exfalso; eapply N; reflexivity). }
  destruct (lookup raw "dataset") as [w|] eqn:E; [|apply NO; discriminate].
  destruct w; try (apply NO; discriminate).
  pose proof (dataset_lim d) as A. destruct (limit_dataset o l d) as (d', c). cbn [fst snd] in *.
  rewrite <- (dset_twice raw "dataset" (PDict (with_options d)) (PDict d')).
  apply (Lim_entry _ _ _ "dataset" (PDict (with_options d))); [rewrite lookup_dset, String.eqb_refl; reflexivity|exact A|].
  intros q c0 s0 [(X & _)|(X & _)]; cbn in X; subst q; eauto.
Qed.
Definition G_rest : gov := fun P c s => G_preprocess P c s \/ (G_views P c s \/ ((G_params P c s \/ G_model P c s) \/ G_graph P c s)).
Lemma limit_all_lim raw : Lim [] (governed l) (PDict (prepared raw)) (PDict (fst (limit_all raw))) (snd (limit_all raw)).
Proof.
  apply (Lim_ext _ (fun P c s => G_dataset P c s \/ G_rest P c s)).
  { intros q c s. cbn [app]. split.
    - intros [[(-> & E & ->)|(-> & E & ->)]|[(i & -> & E & ->)|[(j & i & -> & E & ->)|[[[(-> & E & ->)|[(-> & E & ->)|(-> & E & ->)]]|(-> & E & ->)]|(-> & E & ->)]]]];
        cbn [app]; constructor; exact E.
    - unfold G_dataset, G_rest, G_preprocess, G_views, G_view, G_params, G_model, G_graph, only, steps_of. intros g.
      destruct g; cbn [app]; eauto 12 using eq_refl.
    }
  replace (limit_all raw) with (let '(d1, c1) := on_dict raw "dataset" (limit_dataset o l) in
    let '(d2, c2) := limit_rest d1 in (d2, c1 ++ c2)) by reflexivity.
  pose proof (dataset_top raw) as A. destruct (on_dict raw "dataset" (limit_dataset o l)) as (d1, c1). cbn [fst snd] in A.
  assert (B : Lim [] G_rest (PDict d1) (PDict (fst (limit_rest d1))) (snd (limit_rest d1))).
  { unfold G_rest. apply then_lim.
    - intros c. apply on_dict_lim; [apply preprocess_lim|]. intros q ? ? (i & E & _). cbn in E. subst q. eauto.
    - intros c. apply then_lim.
      + intros c'. apply on_dict_lim; [apply views_lim|]. intros q ? ? (j & i & E & _). cbn in E. subst q. eauto.
      + intros c'. apply then_lim.
        * intros c''. apply on_dict_lim; [apply method_lim|]. intros q ? ? [[(E & _)|[(E & _)|(E & _)]]|(E & _)]; cbn in E; subst q; eauto.
        * intros c''. apply on_dict_lim; [apply graph_lim|]. intros q ? ? (E & _); cbn in E; subst q; eauto.
        * intros P a b a' b' [[(-> & _)|[(-> & _)|(-> & _)]]|(-> & _)] (E & _); discriminate.
      + intros P a b a' b' (j & i & -> & _) [[[(E & _)|[(E & _)|(E & _)]]|(E & _)]|(E & _)]; discriminate.
    - intros P a b a' b' (i & -> & _) [(j & i' & E & _)|[[[(E & _)|[(E & _)|(E & _)]]|(E & _)]|(E & _)]]; discriminate. }
  destruct (limit_rest d1) as (d2, c2). cbn [fst snd] in *.
  eapply Lim_trans; [exact A|exact B|].
  intros P a b a' b' [(-> & _)|(-> & _)] [(i & E & _)|[(j & i' & E & _)|[[[(E & _)|[(E & _)|(E & _)]]|(E & _)]|(E & _)]]]; discriminate.
Qed.
End Lim.

(* ------------------------------------------------------------------ what apply_limits returns *)
Section Apply.
Variable o : Oracle.
Variable lower : string -> string.
Variable detected : option string.

Lemma apply_inv raw cfg strict raw' ch l :
  apply_limits o lower detected raw cfg strict = Ok (raw', ch, Some l) ->
  resolve_limits lower detected cfg strict = Ok (Some l) /\ limit_all o l raw = (raw', ch).
Proof.
  unfold apply_limits. destruct (resolve_limits lower detected cfg strict) as [[r|]|e]; cbn [bind]; try discriminate.
  change (then_ (fun d => on_dict d "dataset" (limit_dataset o r))
        (then_ (fun d => on_dict d "preprocess" (limit_preprocess o r))
        (then_ (fun d => on_dict d "views" (limit_views o r))
        (then_ (fun d => on_dict d "method" (limit_method o r))
               (fun d => on_dict d "graph" (limit_graph o r))))) raw) with (limit_all o r raw).
  destruct (limit_all o r raw) as (a, b) eqn:E. intros X. injection X as <- <- <-. auto.
Qed.

(* _ensure_dict touches one place only *)
Lemma prepared_away raw p : (forall r, p <> options_place ++ r) -> p <> [] -> p <> [K "dataset"] ->
  value_at (PDict (prepared raw)) p = value_at (PDict raw) p.
Proof.
  intros H1 H2 H3. unfold prepared. destruct (lookup raw "dataset") as [w|] eqn:E; [|reflexivity]. destruct w; try reflexivity.
  destruct p as [|[k|i] p]; [contradiction| |reflexivity]. rewrite value_at_dset.
  destruct (String.eqb_spec "dataset" k) as [<-|]; [|reflexivity]. cbn [value_at]. rewrite E.
  unfold with_options.
  destruct p as [|[k|i] p]; [contradiction| |].
  - assert (NE : k <> "options") by (intros ->; apply (H1 p); reflexivity).
    assert (X : value_at (PDict (dset d "options" (PDict []))) (K k :: p) = value_at (PDict d) (K k :: p)).
    { rewrite value_at_dset. destruct (String.eqb_spec "options" k); [congruence|reflexivity]. }
    destruct (lookup d "options") as [[]|]; try exact X. reflexivity.
  - destruct (lookup d "options") as [[]|]; reflexivity.
Qed.
Lemma prepared_mapping raw : is_mapping (value_at (PDict raw) options_place) -> prepared raw = raw.
Proof.
  intros (x & E). unfold prepared. cbn in E. destruct (lookup raw "dataset") as [w|] eqn:L; [|discriminate]. destruct w; try discriminate.
  unfold with_options. destruct (lookup d "options") as [w|] eqn:L2; [|discriminate]. injection E as ->. apply dset_same. exact L.
Qed.
Lemma prepared_below raw k r : ~ is_mapping (value_at (PDict raw) options_place) ->
  value_at (PDict (prepared raw)) (options_place ++ K k :: r) = None /\ value_at (PDict raw) (options_place ++ K k :: r) = None.
Proof.
  intros N. cbn in N |- *. unfold prepared. destruct (lookup raw "dataset") as [w|] eqn:L; [|rewrite L; auto].
  destruct w; try (rewrite L; auto). rewrite lookup_dset, String.eqb_refl. unfold with_options.
  destruct (lookup d "options") as [w|] eqn:L2.
  - destruct w; try (cbn; rewrite lookup_dset, String.eqb_refl; auto). exfalso. apply N. exists d0. reflexivity.
  - rewrite lookup_dset, String.eqb_refl. auto.
Qed.

Lemma governed_shape l p c s : governed l p c s -> (exists k, p = options_place ++ [K k]) \/ ((forall r, p <> options_place ++ r) /\ p <> [] /\ p <> [K "dataset"]).
Proof. intros g. destruct g; [left; eexists; reflexivity|left; eexists; reflexivity|..]; right; (split; [intros r; discriminate|split; discriminate]). Qed.
Lemma governed_unique l p c s c' s' : governed l p c s -> governed l p c' s' -> c = c' /\ s = s'.
Proof. intros g g'. destruct g; inversion g'; subst; split; congruence. Qed.

Lemma mapping_dec v : is_mapping v \/ ~ is_mapping v.
Proof. destruct v as [[]|]; try (right; intros (x & E); discriminate). left. eexists. reflexivity. Qed.
Lemma prepared_governed l raw p c s : governed l p c s -> value_at (PDict (prepared raw)) p = value_at (PDict raw) p.
Proof.
  intros g. destruct (governed_shape _ _ _ _ g) as [(k & ->)|(H1 & H2 & H3)]; [|apply prepared_away; auto].
  destruct (mapping_dec (value_at (PDict raw) options_place)) as [M|N].
  - rewrite (prepared_mapping _ M). reflexivity.
  - destruct (prepared_below raw k [] N) as (-> & ->). reflexivity.
Qed.

Lemma limits_obeyed raw cfg strict raw' ch l p c s :
  apply_limits o lower detected raw cfg strict = Ok (raw', ch, Some l) -> governed l p c s ->
  obeys o c s (value_at (PDict raw) p) (value_at (PDict raw') p).
Proof.
  intros H g. apply apply_inv in H as (_ & E). pose proof (limit_all_lim o l raw) as A. rewrite E in A.
  rewrite <- (prepared_governed l raw p c s g). apply (l_gov _ _ _ _ _ _ A p c s g).
Qed.
Lemma obeys_at_most c s a w z : obeys o c s a (Some w) -> stands_for o w z -> z <= c.
Proof.
  intros [((E & _) & _)|(S & X)] Sw.
  - injection E as ->. destruct Sw as (_ & _ & Ez). cbn in Ez. injection Ez as ->. lia.
  - pose proof (same_number_r _ _ _ _ Sw S) as ->. eapply X; eauto.
Qed.

Lemma limits_frame raw cfg strict raw' ch l p :
  apply_limits o lower detected raw cfg strict = Ok (raw', ch, Some l) ->
  (forall c s, ~ governed l p c s) ->
  (forall r, p = options_place ++ r -> is_mapping (value_at (PDict raw) options_place)) ->
  same (value_at (PDict raw) p) (value_at (PDict raw') p).
Proof.
  intros H N HO. apply apply_inv in H as (_ & E). pose proof (limit_all_lim o l raw) as A. rewrite E in A.
  pose proof (l_frame _ _ _ _ _ _ A p N) as F.
  destruct (mapping_dec (value_at (PDict raw) options_place)) as [M|NM]; [rewrite (prepared_mapping _ M) in F; exact F|].
  assert (H1 : forall r, p <> options_place ++ r) by (intros r ->; exact (NM (HO r eq_refl))).
  destruct p as [|x p']; [exact Logic.I|].
  assert (D : x :: p' = [K "dataset"] \/ x :: p' <> [K "dataset"]).
  { destruct p'; [|right; discriminate]. destruct x as [k|i]; [|right; discriminate].
    destruct (String.eqb_spec k "dataset") as [->|NE]; [left; reflexivity|right; congruence]. }
  destruct D as [D|D].
  - rewrite D in *. revert F. cbn. unfold prepared. destruct (lookup raw "dataset") as [w|] eqn:L; [|rewrite L; auto].
    destruct w; try (rewrite L; auto). rewrite lookup_dset, String.eqb_refl. cbn.
    destruct (lookup raw' "dataset") as [[]|]; auto; discriminate.
  - rewrite (prepared_away raw _ H1) in F; [exact F|discriminate|exact D].
Qed.
Lemma prepared_is_mapping raw : is_mapping (value_at (PDict raw) [K "dataset"]) -> is_mapping (value_at (PDict (prepared raw)) options_place).
Proof.
  intros (d & E). cbn in E. unfold prepared. destruct (lookup raw "dataset") as [w|] eqn:L; [|discriminate]. injection E as ->.
  cbn. rewrite lookup_dset, String.eqb_refl. unfold with_options. destruct (lookup d "options") as [[]|] eqn:L2;
    try (cbn; rewrite lookup_dset, String.eqb_refl; eexists; reflexivity). rewrite L2. eexists; reflexivity.
Qed.
(* dataset.options is made a mapping, empty but for the limits *)
Lemma limits_options raw cfg strict raw' ch l :
  apply_limits o lower detected raw cfg strict = Ok (raw', ch, Some l) ->
  is_mapping (value_at (PDict raw) [K "dataset"]) ->
  is_mapping (value_at (PDict raw') options_place) /\
  (~ is_mapping (value_at (PDict raw) options_place) -> forall k r, (forall c s, ~ governed l (options_place ++ K k :: r) c s) ->
     value_at (PDict raw') (options_place ++ K k :: r) = None).
Proof.
  intros H D. apply apply_inv in H as (_ & E). pose proof (limit_all_lim o l raw) as A. rewrite E in A. cbn [fst snd] in A. split.
  - pose proof (l_frame _ _ _ _ _ _ A options_place) as F. destruct (prepared_is_mapping raw D) as (x & Ex). cbn [app] in F. rewrite Ex in F.
    assert (X : forall c s, ~ governed l options_place c s) by (intros c s g; inversion g).
    specialize (F X). destruct (value_at (PDict raw') options_place) as [[]|]; cbn in F; try contradiction; try discriminate. eexists; reflexivity.
  - intros NM k r N. pose proof (l_frame _ _ _ _ _ _ A (options_place ++ K k :: r) N) as F. rewrite (proj1 (prepared_below raw k r NM)) in F.
    destruct (value_at (PDict raw') (options_place ++ K k :: r)) as [[]|]; cbn in F; try contradiction; reflexivity.
Qed.

Lemma changes_exact raw cfg strict raw' ch l :
  apply_limits o lower detected raw cfg strict = Ok (raw', ch, Some l) ->
  NoDup (map fst ch) /\
  (forall P, In P (map fst ch) <-> exists c s, governed l P c s /\ limited o c (value_at (PDict raw) P) (value_at (PDict raw') P)) /\
  (forall P t, In (P, t) ch -> exists c, value_at (PDict raw') P = Some (PInt c) /\ message o P (value_at (PDict raw) P) c t).
Proof.
  intros H. apply apply_inv in H as (_ & E). pose proof (limit_all_lim o l raw) as A. rewrite E in A. cbn [fst snd] in A.
  split; [apply (l_nd _ _ _ _ _ _ A)|]. split.
  - intros P. split.
    + intros HI. apply in_map_iff in HI as ((P', t) & X & HI). cbn in X. subst P'.
      destruct (l_ch1 _ _ _ _ _ _ A P t HI) as (q & c & s & -> & g & W & _). cbn [app] in *. exists c, s. split; [exact g|].
      rewrite (prepared_governed l raw q c s g) in W. exact W.
    + intros (c & s & g & W). apply (l_ch2 _ _ _ _ _ _ A P c s g). rewrite (prepared_governed l raw P c s g). exact W.
  - intros P t HI. destruct (l_ch1 _ _ _ _ _ _ A P t HI) as (q & c & s & -> & g & W & M). cbn [app] in *. exists c.
    rewrite (prepared_governed l raw q c s g) in M. split; [apply W|exact M].
Qed.

Lemma clamp_sets container key c path at_ : lookup (fst (clamp_key o container key (Some c) path at_ true)) key <> None.
Proof.
  unfold clamp_key. destruct (lookup container key) as [old|] eqn:E.
  - destruct (coerce_int o old) as [cur|]; [|cbn; congruence]. destruct (Z.min cur c =? cur); cbn; [congruence|].
    rewrite lookup_dset, String.eqb_refl. discriminate.
  - cbn. rewrite lookup_dset, String.eqb_refl. discriminate.
Qed.
Lemma same_mapping a b : same a b -> (is_mapping a <-> is_mapping b).
Proof.
  intros S. split; intros (x & E); rewrite E in S.
  - destruct b as [[]|]; cbn in S; try contradiction; try discriminate. eexists; reflexivity.
  - destruct a as [[]|]; cbn in S; try contradiction; try discriminate. eexists; reflexivity.
Qed.
Lemma same_mapping_r a b : same a b -> is_mapping a -> is_mapping b.
Proof. intros S. apply (same_mapping a b S). Qed.
Lemma same_mapping_l a b : same a b -> is_mapping b -> is_mapping a.
Proof. intros S. apply (same_mapping a b S). Qed.
Lemma clamp_keeps container key key' lim path at_ s : key' <> key -> lookup (fst (clamp_key o container key lim path at_ s)) key' = lookup container key'.
Proof.
  intros N. unfold clamp_key. destruct lim; [|reflexivity].
  assert (X : forall w, lookup (dset container key w) key' = lookup container key').
  { intros w. rewrite lookup_dset. destruct (String.eqb_spec key key'); [congruence|reflexivity]. }
  destruct (lookup container key) as [old|].
  - destruct (coerce_int o old); [|reflexivity]. destruct (_ =? _); [reflexivity|apply X].
  - destruct s; [apply X|reflexivity].
Qed.

Lemma dataset_sets l d key c : (key = "max_train_samples" /\ rl_train_samples l = Some c) \/ (key = "max_test_samples" /\ rl_test_samples l = Some c) ->
  value_at (PDict (fst (limit_dataset o l d))) [K "options"; K key] <> None.
Proof.
  intros H. unfold limit_dataset. set (x := match lookup d "options" with Some (PDict x) => x | _ => [] end).
  unfold then_.
  destruct (clamp_key o x "max_train_samples" (rl_train_samples l) "dataset.options" [K "dataset"; K "options"] true) as (d1, c1) eqn:E1.
  destruct (clamp_key o d1 "max_test_samples" (rl_test_samples l) "dataset.options" [K "dataset"; K "options"] true) as (d2, c2) eqn:E2.
  cbn [fst]. rewrite value_at_dset, String.eqb_refl. cbn.
  assert (X : lookup d2 key <> None); [|destruct (lookup d2 key); [discriminate|congruence]].
  change d2 with (fst (d2, c2)). rewrite <- E2. destruct H as [(-> & R)|(-> & R)].
  - rewrite clamp_keeps by discriminate. change d1 with (fst (d1, c1)). rewrite <- E1, R. apply clamp_sets.
  - rewrite R. apply clamp_sets.
Qed.
Lemma limit_rest_lim l d : Lim o [] (G_rest l) (PDict d) (PDict (fst (limit_rest o l d))) (snd (limit_rest o l d)).
Proof.
  unfold G_rest. unfold limit_rest. apply then_lim.
  - intros c. apply on_dict_lim; [apply preprocess_lim|]. intros q ? ? (i & E & _). cbn in E. subst q. eauto.
  - intros c. apply then_lim.
    + intros c'. apply on_dict_lim; [apply views_lim|]. intros q ? ? (j & i & E & _). cbn in E. subst q. eauto.
    + intros c'. apply then_lim.
      * intros c''. apply on_dict_lim; [apply method_lim|]. intros q ? ? [[(E & _)|[(E & _)|(E & _)]]|(E & _)]; cbn in E; subst q; eauto.
      * intros c''. apply on_dict_lim; [apply graph_lim|]. intros q ? ? (E & _); cbn in E; subst q; eauto.
      * intros P a b a' b' [[(-> & _)|[(-> & _)|(-> & _)]]|(-> & _)] (E & _); discriminate.
    + intros P a b a' b' (j & i & -> & _) [[[(E & _)|[(E & _)|(E & _)]]|(E & _)]|(E & _)]; discriminate.
  - intros P a b a' b' (i & -> & _) [(j & i' & E & _)|[[[(E & _)|[(E & _)|(E & _)]]|(E & _)]|(E & _)]]; discriminate.
Qed.
Lemma value_on_dict d k f p : is_mapping (lookup d k) ->
  exists x, lookup d k = Some (PDict x) /\ value_at (PDict (fst (on_dict d k f))) (K k :: p) = value_at (PDict (fst (f x))) p.
Proof.
  intros (x & E). exists x. split; [exact E|]. unfold on_dict. rewrite E. destruct (f x) as (c', ch). cbn [fst].
  rewrite value_at_dset, String.eqb_refl. reflexivity.
Qed.
Lemma limits_set_samples l raw key c : (key = "max_train_samples" /\ rl_train_samples l = Some c) \/ (key = "max_test_samples" /\ rl_test_samples l = Some c) ->
  is_mapping (value_at (PDict raw) [K "dataset"]) -> value_at (PDict (fst (limit_all o l raw))) (options_place ++ [K key]) <> None.
Proof.
  intros H M. unfold limit_all, then_ at 1.
  assert (M' : is_mapping (lookup raw "dataset")) by (cbn in M; destruct (lookup raw "dataset"); auto).
  destruct (value_on_dict raw "dataset" (limit_dataset o l) [K "options"; K key] M') as (x & Ex & V).
  destruct (on_dict raw "dataset" (limit_dataset o l)) as (d1, c1). cbn [fst] in V.
  pose proof (l_frame _ _ _ _ _ _ (limit_rest_lim l d1) (options_place ++ [K key])) as F.
  destruct (limit_rest o l d1) as (d2, c2). cbn [fst snd] in *.
  assert (F' : same (value_at (PDict d1) (options_place ++ [K key])) (value_at (PDict d2) (options_place ++ [K key]))).
  { apply F. intros cc s [(i & E & _)|[(j & i' & E & _)|[[[(E & _)|[(E & _)|(E & _)]]|(E & _)]|(E & _)]]]; discriminate. }
  cbn [app options_place] in *. rewrite V in F'. pose proof (dataset_sets l x key c H) as D.
  intros N. rewrite N in F'. apply same_none_r in F'. contradiction.
Qed.
Lemma limits_set_chunk l raw c : rl_graph_chunk l = Some c ->
  is_mapping (value_at (PDict raw) [K "graph"; K "spec"]) -> value_at (PDict (fst (limit_all o l raw))) [K "graph"; K "spec"; K "chunk_size"] <> None.
Proof.
  intros H M. unfold limit_all, then_ at 1.
  pose proof (l_frame _ _ _ _ _ _ (dataset_top o l raw) [K "graph"; K "spec"]) as F0.
  destruct (on_dict raw "dataset" (limit_dataset o l)) as (d1, c1). unfold limit_rest, then_ at 1.
  cbn [fst snd] in F0. rewrite (prepared_away raw [K "graph"; K "spec"]) in F0 by (try discriminate; intros r; discriminate).
  assert (M1 : is_mapping (value_at (PDict d1) [K "graph"; K "spec"])).
  { eapply same_mapping_r; [apply F0; intros ? ? [(E & _)|(E & _)]; discriminate|exact M]. }
  clear F0 M.
  pose proof (l_frame _ _ _ _ _ _ (on_dict_lim o [] (G_preprocess l) d1 "preprocess" _ (preprocess_lim o l) (fun q c s g => match g with ex_intro _ i (conj E _) => ltac:(cbn in E; subst q; eauto) end)) [K "graph"; K "spec"]) as F1.
  destruct (on_dict d1 "preprocess" (limit_preprocess o l)) as (d2, c2). cbn [fst snd] in F1. unfold then_ at 1.
  assert (M2 : is_mapping (value_at (PDict d2) [K "graph"; K "spec"])).
  { eapply same_mapping_r; [apply F1; intros ? ? (i & E & _); discriminate|exact M1]. }
  clear F1 M1.
  assert (F2 : same (value_at (PDict d2) [K "graph"; K "spec"]) (value_at (PDict (fst (on_dict d2 "views" (limit_views o l)))) [K "graph"; K "spec"])).
  { eapply (l_frame _ _ _ _ _ _ (on_dict_lim o [] (G_views l) d2 "views" _ (views_lim o l) _)). intros ? ? (j & i & E & _); discriminate.
    Unshelve. intros q ? ? (j & i & E & _). cbn in E. subst q. eauto. }
  destruct (on_dict d2 "views" (limit_views o l)) as (d3, c3). cbn [fst snd] in F2. unfold then_ at 1.
  assert (M3 : is_mapping (value_at (PDict d3) [K "graph"; K "spec"])) by (eapply same_mapping_r; [exact F2|exact M2]).
  clear F2 M2.
  assert (F3 : same (value_at (PDict d3) [K "graph"; K "spec"]) (value_at (PDict (fst (on_dict d3 "method" (limit_method o l)))) [K "graph"; K "spec"])).
  { eapply (l_frame _ _ _ _ _ _ (on_dict_lim o [] (fun P c s => G_params l P c s \/ G_model l P c s) d3 "method" _ (method_lim o l) _)).
    intros ? ? [[(E & _)|[(E & _)|(E & _)]]|(E & _)]; discriminate.
    Unshelve. intros q ? ? [[(E & _)|[(E & _)|(E & _)]]|(E & _)]; cbn in E; subst q; eauto. }
  destruct (on_dict d3 "method" (limit_method o l)) as (d4, c4). cbn [fst snd] in F3.
  assert (M4 : is_mapping (value_at (PDict d4) [K "graph"; K "spec"])) by (eapply same_mapping_r; [exact F3|exact M3]).
  clear F3 M3.
  destruct M4 as (sp & E4). cbn in E4. destruct (lookup d4 "graph") as [w|] eqn:L1; [|discriminate]. destruct w; try discriminate.
  destruct (lookup d "spec") as [w|] eqn:L2; [|discriminate]. injection E4 as ->.
  destruct (value_on_dict d4 "graph" (limit_graph o l) [K "spec"; K "chunk_size"]) as (x & Ex & V); [rewrite L1; eexists; reflexivity|].
  rewrite L1 in Ex. injection Ex as <-.
  destruct (on_dict d4 "graph" (limit_graph o l)) as (d5, c5). cbn [fst snd] in *. rewrite V. unfold limit_graph.
  destruct (value_on_dict d "spec" (fun spec => clamp_key o spec "chunk_size" (rl_graph_chunk l) "graph.spec" [K "graph"; K "spec"] true) [K "chunk_size"]) as (x & Ex & V2);
    [rewrite L2; eexists; reflexivity|]. rewrite V2, H.
  rewrite L2 in Ex. injection Ex as <-. pose proof (clamp_sets sp "chunk_size" c "graph.spec" [K "graph"; K "spec"]) as S.
  cbn [value_at]. destruct (lookup _ "chunk_size"); [discriminate|congruence].
Qed.

(* the second application changes nothing *)
Lemma value_at_app p q v : value_at v (p ++ q) = match value_at v p with Some w => value_at w q | None => None end.
Proof.
  revert v. induction p as [|[k|i] p IH]; intros v; [reflexivity|..]; cbn.
  - destruct v; try reflexivity. destruct (lookup d k); [apply IH|reflexivity].
  - destruct v; try reflexivity. destruct (nth_error l i); [apply IH|reflexivity].
Qed.
Lemma value_key_mapping v p k w : value_at v (p ++ [K k]) = Some w -> is_mapping (value_at v p).
Proof. rewrite value_at_app. destruct (value_at v p) as [[]|]; cbn; try discriminate. eexists; reflexivity. Qed.

Lemma limits_idempotent raw cfg strict raw' ch l :
  apply_limits o lower detected raw cfg strict = Ok (raw', ch, Some l) ->
  apply_limits o lower detected raw' cfg strict = Ok (raw', [], Some l).
Proof.
  intros H. pose proof (apply_inv _ _ _ _ _ _ H) as (R & E).
  assert (RUN : exists raw2 ch2, apply_limits o lower detected raw' cfg strict = Ok (raw2, ch2, Some l) /\ limit_all o l raw' = (raw2, ch2)).
  { unfold apply_limits. rewrite R. cbn [bind].
    change (then_ (fun d => on_dict d "dataset" (limit_dataset o l))
        (then_ (fun d => on_dict d "preprocess" (limit_preprocess o l))
        (then_ (fun d => on_dict d "views" (limit_views o l))
        (then_ (fun d => on_dict d "method" (limit_method o l))
               (fun d => on_dict d "graph" (limit_graph o l))))) raw') with (limit_all o l raw').
    destruct (limit_all o l raw') as (a, b). eauto. }
  destruct RUN as (raw2 & ch2 & H2 & E2). rewrite H2.
  pose proof (limit_all_lim o l raw') as A. rewrite E2 in A. cbn [fst snd] in A.
  pose proof (changes_exact _ _ _ _ _ _ H2) as (_ & CH & _).
  assert (NC : ch2 = []).
  { destruct ch2 as [|(P, t) ch2]; [reflexivity|]. exfalso. destruct (proj1 (CH P) (or_introl eq_refl)) as (c & s & g & (Eb & W)).
    pose proof (limits_obeyed _ _ _ _ _ _ _ _ _ H g) as OB.
    destruct W as [N|(w & z & Ew & Sw & B)].
    - pose proof (limits_obeyed _ _ _ _ _ _ _ _ _ H2 g) as OB2. rewrite N in OB2.
      assert (s = true) as -> by (destruct OB2 as [(_ & X)|(X & _)]; [auto|rewrite Eb in X; destruct X]).
      assert (ND : forall k, is_mapping (value_at (PDict raw2) (options_place ++ [K k])) -> True) by auto. clear ND.
      inversion g; subst P.
      + change [K "dataset"; K "options"; K "max_train_samples"] with (options_place ++ [K "max_train_samples"]) in Eb, N. rename H0 into Y.
        assert (M : is_mapping (value_at (PDict raw') [K "dataset"])).
        { eapply same_mapping_l; [eapply limits_frame; [exact H2|intros ? ? g'; inversion g'|intros r X; discriminate]|].
          apply value_key_mapping in Eb. destruct Eb as (x & Eb). apply (value_key_mapping _ [K "dataset"] "options" _ Eb). }
        assert (M0 : is_mapping (value_at (PDict raw) [K "dataset"])).
        { eapply same_mapping_l; [eapply limits_frame; [exact H|intros ? ? g'; inversion g'|intros r X; discriminate]|exact M]. }
        pose proof (limits_set_samples l raw "max_train_samples" c (or_introl (conj eq_refl Y)) M0) as S. rewrite E in S. contradiction.
      + change [K "dataset"; K "options"; K "max_test_samples"] with (options_place ++ [K "max_test_samples"]) in Eb, N. rename H0 into Y.
        assert (M : is_mapping (value_at (PDict raw') [K "dataset"])).
        { eapply same_mapping_l; [eapply limits_frame; [exact H2|intros ? ? g'; inversion g'|intros r X; discriminate]|].
          apply value_key_mapping in Eb. destruct Eb as (x & Eb). apply (value_key_mapping _ [K "dataset"] "options" _ Eb). }
        assert (M0 : is_mapping (value_at (PDict raw) [K "dataset"])).
        { eapply same_mapping_l; [eapply limits_frame; [exact H|intros ? ? g'; inversion g'|intros r X; discriminate]|exact M]. }
        pose proof (limits_set_samples l raw "max_test_samples" c (or_intror (conj eq_refl Y)) M0) as S. rewrite E in S. contradiction.
      + rename H0 into Y.
        assert (M : is_mapping (value_at (PDict raw') [K "graph"; K "spec"])).
        { eapply same_mapping_l; [eapply limits_frame; [exact H2|intros ? ? g'; inversion g'|intros r X; discriminate]|].
          apply (value_key_mapping _ [K "graph"; K "spec"] "chunk_size" _ Eb). }
        assert (M0 : is_mapping (value_at (PDict raw) [K "graph"; K "spec"])).
        { eapply same_mapping_l; [eapply limits_frame; [exact H|intros ? ? g'; inversion g'|intros r X; discriminate]|exact M]. }
        pose proof (limits_set_chunk l raw c Y M0) as S. rewrite E in S. contradiction.
    - rewrite Ew in OB. pose proof (obeys_at_most _ _ _ _ _ OB Sw). lia. }
  subst ch2. do 3 f_equal.
  pose proof (l_id _ _ _ _ _ _ A eq_refl) as X. injection X as ->.
  destruct (mapping_dec (value_at (PDict raw') [K "dataset"])) as [M|NM].
  - apply prepared_mapping.
    assert (M0 : is_mapping (value_at (PDict raw) [K "dataset"])).
    { eapply same_mapping_l; [eapply limits_frame; [exact H|intros ? ? g'; inversion g'|intros r X; discriminate]|exact M]. }
    apply (limits_options _ _ _ _ _ _ H M0).
  - unfold prepared. destruct (lookup raw' "dataset") as [w|] eqn:L; [|reflexivity]. destruct w; try reflexivity.
    exfalso. apply NM. cbn. rewrite L. eexists; reflexivity.
Qed.

(* ------------------------------------------------------------------ resolve_limits *)
Lemma resolve_spec cfg strict l : resolve_limits lower detected (Some cfg) strict = Ok (Some l) ->
  let '(a, b, c, d) := profile_limits (rl_profile l) in
  in_force (lc_preprocess_batch cfg) a (rl_preprocess_batch l) /\ in_force (lc_method_batch cfg) b (rl_method_batch l) /\
  in_force (lc_method_sup_batch cfg) c (rl_method_sup_batch l) /\ in_force (lc_graph_chunk cfg) d (rl_graph_chunk l) /\
  rl_train_samples l = lc_train_samples cfg /\ rl_test_samples l = lc_test_samples cfg.
Proof.
  unfold resolve_limits. set (prof := match lc_profile cfg with Some p => if String.eqb p "" then None else Some (lower p) | None => None end).
  destruct (strict && match prof with Some p => String.eqb p "auto" | None => false end); [discriminate|].
  set (res := match prof with None => None | Some p => if String.eqb p "" then None else Some (if String.eqb p "auto" then match detected with Some d => d | None => "v100" end else p) end).
  clearbody res. cbv zeta. intros H.
  match type of H with context [Ok (Some ?r)] => assert (l = r) as -> end.
  { revert H. cbn. repeat match goal with |- context [match ?x with Some _ => _ | None => _ end = _] => destruct x end; try discriminate; intros X; injection X as <-; reflexivity. }
  cbn. unfold profile_limits, preset, in_force, or_default.
  destruct res as [r|]; cbn.
  - destruct (String.eqb r "v100"); [|destruct (String.eqb r "h100")]; cbn;
      repeat split; match goal with |- match ?x with Some _ => _ | None => _ end => destruct x; reflexivity | |- _ => idtac end.
  - repeat split; match goal with |- match ?x with Some _ => _ | None => _ end => destruct x; reflexivity | |- _ => idtac end.
Qed.
End Apply.

(* ------------------------------------------------------------------ seed sweep *)
Lemma lookup_dpop d k k' : lookup (dpop d k) k' = if String.eqb k k' then None else lookup d k'.
Proof.
  unfold dpop. induction d as [|(x, v) d IH]; cbn [filter].
  - destruct (String.eqb k k'); reflexivity.
  - cbn [fst]. destruct (String.eqb_spec x k) as [->|NE]; cbn [negb].
    + rewrite IH, lookup_cons. destruct (String.eqb k k'); reflexivity.
    + rewrite !lookup_cons, IH. destruct (String.eqb_spec x k') as [->|]; [|reflexivity].
      destruct (String.eqb_spec k k'); [congruence|reflexivity].
Qed.
(* one pass of the loop over the sections *)
Lemma fold_seed seed sections : NoDup sections -> forall d k,
  lookup (fold_left (seed_section seed) sections d) k =
  if memS k sections then match lookup d k with Some (PDict b) => Some (PDict (dset b "seed" (PInt seed))) | x => x end else lookup d k.
Proof.
  induction sections as [|s r IH]; intros ND d k; [reflexivity|]. inversion ND; subst. cbn [fold_left]. rewrite IH by assumption.
  unfold memS. cbn [existsb]. change (existsb (String.eqb k) r) with (memS k r).
  assert (L : lookup (seed_section seed d s) k = if String.eqb k s then match lookup d k with Some (PDict b) => Some (PDict (dset b "seed" (PInt seed))) | x => x end else lookup d k).
  { unfold seed_section. destruct (String.eqb_spec k s) as [->|NE].
    - destruct (lookup d s) as [[]|] eqn:E; try (rewrite E; reflexivity); [rewrite lookup_dset, String.eqb_refl; reflexivity].
    - destruct (lookup d s) as [[]|] eqn:E; try reflexivity. rewrite lookup_dset. destruct (String.eqb_spec s k); [congruence|reflexivity]. }
  rewrite L. destruct (String.eqb_spec k s) as [->|NE]; cbn [orb].
  - assert (M : memS s r = false). { destruct (memS s r) eqn:M; [|reflexivity]. apply memS_mem in M. contradiction. }
    rewrite M. reflexivity.
  - reflexivity.
Qed.
Lemma sections_nodup : NoDup seeded_sections.
Proof. repeat constructor; cbn; intuition discriminate. Qed.

Definition swept_run (raw : pydict) (seed : Z) (name : option string) : pydict :=
  let run := match lookup raw "run" with Some (PDict r) => r | _ => [] end in
  let run := dset (dpop run "seeds") "seed" (PInt seed) in
  match name with Some n => dset run "name" (PStr n) | None => run end.
Lemma lookup_swept raw seed name k :
  lookup (apply_global_seed raw seed name) k =
  if String.eqb k "run" then Some (PDict (swept_run raw seed name))
  else if memS k seeded_sections then match lookup raw k with Some (PDict b) => Some (PDict (dset b "seed" (PInt seed))) | x => x end
  else lookup raw k.
Proof.
  unfold apply_global_seed. rewrite (fold_seed seed seeded_sections sections_nodup). fold (swept_run raw seed name).
  rewrite lookup_dset. destruct (String.eqb_spec "run" k) as [<-|NE].
  - cbn [memS existsb seeded_sections String.eqb Ascii.eqb Bool.eqb andb orb]. reflexivity.
  - destruct (String.eqb_spec k "run"); [congruence|]. reflexivity.
Qed.
Lemma lookup_swept_run raw seed name k :
  lookup (swept_run raw seed name) k =
  if String.eqb k "seeds" then None
  else if String.eqb k "seed" then Some (PInt seed)
  else match String.eqb k "name", name with
       | true, Some n => Some (PStr n)
       | _, _ => match lookup raw "run" with Some (PDict r) => lookup r k | _ => None end
       end.
Proof.
  assert (B : forall r, lookup (dset (dpop r "seeds") "seed" (PInt seed)) k =
     if String.eqb k "seeds" then None else if String.eqb k "seed" then Some (PInt seed) else lookup r k).
  { intros r. rewrite lookup_dset, lookup_dpop. destruct (String.eqb_spec "seed" k) as [<-|N1]; [reflexivity|].
    destruct (String.eqb_spec "seeds" k) as [<-|N2]; [reflexivity|].
    destruct (String.eqb_spec k "seeds"); [congruence|]. destruct (String.eqb_spec k "seed"); [congruence|]. reflexivity. }
  unfold swept_run. cbv zeta. set (r := match lookup raw "run" with Some (PDict r) => r | _ => [] end).
  assert (R : match lookup raw "run" with Some (PDict r) => lookup r k | _ => None end = lookup r k).
  { unfold r. destruct (lookup raw "run") as [[]|]; reflexivity. }
  rewrite R. clearbody r. destruct name as [n|].
  - rewrite lookup_dset, B. destruct (String.eqb_spec "name" k) as [<-|N1]; [reflexivity|].
    destruct (String.eqb_spec k "name"); [congruence|]. reflexivity.
  - rewrite B. destruct (String.eqb k "name"); reflexivity.
Qed.

Lemma sweep_sets raw seed name :
  value_at (PDict (apply_global_seed raw seed name)) [K "run"; K "seed"] = Some (PInt seed) /\
  value_at (PDict (apply_global_seed raw seed name)) [K "run"; K "seeds"] = None /\
  (forall n, name = Some n -> value_at (PDict (apply_global_seed raw seed name)) [K "run"; K "name"] = Some (PStr n)) /\
  (forall s, In s ["sampling"; "preprocess"; "views"; "graph"; "augmentation"; "search"] -> is_mapping (value_at (PDict raw) [K s]) ->
     value_at (PDict (apply_global_seed raw seed name)) [K s; K "seed"] = Some (PInt seed)).
Proof.
  cbn [value_at]. rewrite lookup_swept. cbn [String.eqb Ascii.eqb Bool.eqb]. rewrite !lookup_swept_run. cbn [String.eqb Ascii.eqb Bool.eqb].
  split; [reflexivity|]. split; [reflexivity|]. split.
  - intros n ->. reflexivity.
  - intros s HI (b & E). rewrite lookup_swept.
    assert (NR : String.eqb s "run" = false) by (destruct (String.eqb_spec s "run") as [->|]; [cbn in HI; intuition discriminate|reflexivity]).
    rewrite NR. assert (M : memS s seeded_sections = true) by (apply memS_mem; exact HI). rewrite M.
    destruct (lookup raw s) as [w|]; [|discriminate]. injection E as ->. rewrite lookup_dset, String.eqb_refl. reflexivity.
Qed.
Lemma sweep_frame raw seed name p :
  (forall q r, sweep_place raw q -> p = q ++ r -> q = [K "run"; K "name"] /\ name = None) ->
  (forall r, p = K "run" :: r -> is_mapping (value_at (PDict raw) [K "run"])) ->
  same (value_at (PDict raw) p) (value_at (PDict (apply_global_seed raw seed name)) p).
Proof.
  intros HS HR. destruct p as [|[k|i] p]; [exact Logic.I| |exact Logic.I]. cbn [value_at]. rewrite lookup_swept.
  destruct (String.eqb_spec k "run") as [->|NR].
  - destruct (HR p eq_refl) as (r & E). cbn in E. destruct (lookup raw "run") as [w|] eqn:L; [|discriminate]. injection E as ->.
    destruct p as [|[k|i] p]; [exact Logic.I| |exact Logic.I]. cbn [value_at]. rewrite lookup_swept_run, L.
    destruct (String.eqb_spec k "seeds") as [->|N1].
    { exfalso. destruct (HS [K "run"; K "seeds"] p) as (X & _); [right; left; reflexivity|reflexivity|discriminate]. }
    destruct (String.eqb_spec k "seed") as [->|N2].
    { exfalso. destruct (HS [K "run"; K "seed"] p) as (X & _); [left; reflexivity|reflexivity|discriminate]. }
    destruct (String.eqb_spec k "name") as [->|N3].
    { destruct (HS [K "run"; K "name"] p) as (_ & ->); [right; right; left; reflexivity|reflexivity|]. apply same_refl. }
    apply same_refl.
  - destruct (memS k seeded_sections) eqn:M; [|apply same_refl].
    destruct (lookup raw k) as [w|] eqn:L; [|apply same_refl]. destruct w; try apply same_refl.
    destruct p as [|[k'|i] p]; [exact Logic.I| |exact Logic.I]. cbn [value_at]. rewrite lookup_dset.
    destruct (String.eqb_spec "seed" k') as [<-|NE]; [|apply same_refl].
    exfalso. destruct (HS [K k; K "seed"] p) as (X & _).
    + right. right. right. exists k. split; [apply memS_mem in M; exact M|]. split; [cbn; rewrite L; eexists; reflexivity|reflexivity].
    + reflexivity.
    + injection X as -> . discriminate.
Qed.
Lemma append_inj_l (a b c : string) : (a ++ b)%string = (a ++ c)%string -> b = c.
Proof. induction a as [|x a IH]; cbn; [auto|]. intros H. injection H as H. auto. Qed.
Lemma sweep_name_inj base s1 s2 : sweep_run_name base s1 = sweep_run_name base s2 -> s1 = s2.
Proof. unfold sweep_run_name. intros H. apply append_inj_l in H. apply (append_inj_l "-seed") in H. apply dec_inj, H. Qed.
Lemma resolve_total lower detected cfg strict :
  ~ (strict = true /\ exists p, lc_profile cfg = Some p /\ p <> "" /\ lower p = "auto") ->
  exists l, profile_in_force lower detected (lc_profile cfg) (rl_profile l) /\
   (let '(a, b, c, d) := profile_limits (rl_profile l) in
    in_force (lc_preprocess_batch cfg) a (rl_preprocess_batch l) /\ in_force (lc_method_batch cfg) b (rl_method_batch l) /\
    in_force (lc_method_sup_batch cfg) c (rl_method_sup_batch l) /\ in_force (lc_graph_chunk cfg) d (rl_graph_chunk l) /\
    rl_train_samples l = lc_train_samples cfg /\ rl_test_samples l = lc_test_samples cfg) /\
   ((no_limit l /\ resolve_limits lower detected (Some cfg) strict = Ok None) \/
    (~ no_limit l /\ resolve_limits lower detected (Some cfg) strict = Ok (Some l))).
Proof.
  intros NS. unfold resolve_limits.
  assert (PF : profile_in_force lower detected (lc_profile cfg)
     (match (match lc_profile cfg with Some p => if String.eqb p "" then None else Some (lower p) | None => None end) with
      | None => None | Some p => if String.eqb p "" then None else Some (if String.eqb p "auto" then match detected with Some d => d | None => "v100" end else p) end)).
  { destruct (lc_profile cfg) as [p|]; [|reflexivity]. cbn. destruct (String.eqb_spec p "") as [->|N]; [left; auto|]. right.
    destruct (String.eqb_spec (lower p) "") as [E|N1]; [right; right; auto|].
    destruct (String.eqb_spec (lower p) "auto") as [E|N2]; [left; repeat split; auto; destruct detected; reflexivity|right; left; auto]. }
  assert (ST : (strict && match (match lc_profile cfg with Some p => if String.eqb p "" then None else Some (lower p) | None => None end) with Some p => String.eqb p "auto" | None => false end) = false).
  { destruct strict; [|reflexivity]. cbn. destruct (lc_profile cfg) as [p|]; [|reflexivity]. destruct (String.eqb_spec p "") as [->|N]; [reflexivity|].
    destruct (String.eqb_spec (lower p) "auto"); [|reflexivity]. exfalso. apply NS. eauto. }
  rewrite ST. revert PF.
  set (res := match (match lc_profile cfg with Some p => if String.eqb p "" then None else Some (lower p) | None => None end) with
      | None => None | Some p => if String.eqb p "" then None else Some (if String.eqb p "auto" then match detected with Some d => d | None => "v100" end else p) end).
  clearbody res. intros PF. cbv zeta.
  match goal with |- context [Ok (Some ?r)] => exists r end.
  split; [exact PF|]. split.
  - cbn. unfold profile_limits, preset, in_force, or_default.
    destruct res as [r|]; cbn.
    + destruct (String.eqb r "v100"); [|destruct (String.eqb r "h100")]; cbn;
        repeat split; match goal with |- match ?x with Some _ => _ | None => _ end => destruct x; reflexivity | |- _ => idtac end.
    + repeat split; match goal with |- match ?x with Some _ => _ | None => _ end => destruct x; reflexivity | |- _ => idtac end.
  - unfold no_limit. cbn.
    repeat match goal with |- context [match ?x with Some _ => _ | None => Ok None end] => destruct x end;
      first [left; repeat split; reflexivity
            |right; split; [intros X; repeat match goal with H : _ /\ _ |- _ => destruct H end; discriminate|reflexivity]
            |idtac].
    all: repeat match goal with |- context [match ?x with Some _ => _ | None => _ end = Ok None] => destruct x end;
      first [left; repeat split; reflexivity
            |right; split; [intros X; repeat match goal with H : _ /\ _ |- _ => destruct H end; discriminate|reflexivity]].
Qed.
Lemma resolve_strict lower detected cfg p : lc_profile cfg = Some p -> p <> "" -> lower p = "auto" ->
  resolve_limits lower detected (Some cfg) true = Err BenchError.
Proof.
  intros E N L. unfold resolve_limits. rewrite E. destruct (String.eqb_spec p ""); [contradiction|]. rewrite L. reflexivity.
Qed.
