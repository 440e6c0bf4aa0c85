From Coq Require Import Arith QArith String Permutation ZifyBool ZifyNat Lia.
From Verif Require Import Prelude ListFacts SupervisedModel SupervisedSpec SupervisedProofs TclfModel TclfSpec TclfProofs IpreModel IpreSpec.
Local Open Scope string_scope.
Local Open Scope list_scope.
Local Notation length := List.length.

(* ---- the head *)
Lemma last_linear_some items j i : last_linear items = Some (j, i) ->
  (exists o, option_map snd (nth_error items j) = Some (Linear i o)) /\ forall j' i' o', (j < j')%nat -> option_map snd (nth_error items j') <> Some (Linear i' o').
Proof.
  revert j i. induction items as [|[s l] r IH]; intros j i H; [discriminate|]. cbn [last_linear] in H. destruct (last_linear r) as [[j0 i0]|] eqn:E.
  - injection H as <- <-. destruct (IH j0 i0 eq_refl) as [HA HB]. split; [exact HA|]. intros [|j'] i' o' Hj; [lia|]. cbn [nth_error]. apply HB. lia.
  - destruct l as [a b|]; [|discriminate]. injection H as <- <-. split; [exists b; reflexivity|]. intros [|j'] i' o' Hj; [lia|]. cbn [nth_error]. clear IH Hj.
    revert j'. induction r as [|[s' l'] r IH]; intros j'; [destruct j'; discriminate|]. cbn [last_linear] in E. destruct (last_linear r) as [[? ?]|]; [discriminate|]. destruct l'; [discriminate|].
    destruct j' as [|j']; cbn; [discriminate|]. apply IH. reflexivity.
Qed.
Lemma last_linear_none items : last_linear items = None -> forall j i o, option_map snd (nth_error items j) <> Some (Linear i o).
Proof.
  induction items as [|[s l] r IH]; intros E j i o; [destruct j; discriminate|]. cbn [last_linear] in E. destruct (last_linear r) as [[? ?]|]; [discriminate|]. destruct l; [discriminate|].
  destruct j as [|j]; cbn; [discriminate|]. apply IH. reflexivity.
Qed.
Lemma named_some items j l : named_head items = Some (j, l) -> nth_error items j = Some ("head", l) /\ forall j', (j' < j)%nat -> option_map fst (nth_error items j') <> Some "head".
Proof.
  revert j l. induction items as [|[s l0] r IH]; intros j l H; [discriminate|]. cbn [named_head] in H. destruct (String.eqb_spec s "head") as [->|Hs].
  - injection H as <- <-. split; [reflexivity|]. intros; lia.
  - destruct (named_head r) as [[j0 l1]|] eqn:E; [|discriminate]. injection H as <- <-. destruct (IH j0 l1 eq_refl) as [HA HB]. split; [exact HA|]. intros [|j'] Hj; cbn; [congruence|]. apply HB. lia.
Qed.
Lemma named_none items : named_head items = None -> forall j, option_map fst (nth_error items j) <> Some "head".
Proof.
  induction items as [|[s l] r IH]; intros E j; [destruct j; discriminate|]. cbn [named_head] in E. destruct (String.eqb_spec s "head") as [->|Hs]; [discriminate|].
  destruct (named_head r) as [[? ?]|]; [discriminate|]. destruct j as [|j]; cbn; [congruence|]. apply IH. reflexivity.
Qed.
Lemma nth_put items j l j' : (j < length items)%nat -> option_map snd (nth_error (put items j l) j') = if Nat.eqb j' j then Some l else option_map snd (nth_error items j').
Proof.
  unfold put. revert j j'. induction items as [|e items IH]; intros [|j] [|j'] Hj; cbn in *; try lia; try reflexivity. apply IH. lia.
Qed.
Lemma nth_len {A} (l : list A) j x : nth_error l j = Some x -> (j < length l)%nat.
Proof. intros H. apply nth_error_Some. congruence. Qed.
Lemma option_len {A B} (f : A -> B) (l : list A) j x : option_map f (nth_error l j) = Some x -> (j < length l)%nat.
Proof. intros H. apply nth_error_Some. destruct (nth_error l j); [discriminate|discriminate H]. Qed.

(* what a replacement does *)
Definition replaced (m : net) (k : nat) (m' : net) (p : place) (i : nat) : Prop :=
  may_be_head m p /\ linear_at m p i /\ layer_at m' p = Some (Linear i k) /\ forall q, q <> p -> layer_at m' q = layer_at m q.
Ltac others := let q := fresh in intros q; destruct q; cbn; intros; try congruence; try reflexivity.
Lemma fc_some m k m' p i : in_fc m k = Some (m', p, i) -> replaced m k m' p i /\ p = AtFc.
Proof.
  unfold in_fc. destruct (n_fc m) as [[a b|]|] eqn:E; try discriminate. intros [= <- <- <-]. split; [|reflexivity]. split; [exact I|]. split; [exists b; exact E|]. split; [reflexivity|]. others.
Qed.
Lemma fc_none m k : in_fc m k = None -> forall i, ~ linear_at m AtFc i.
Proof. unfold in_fc, linear_at. cbn. destruct (n_fc m) as [[a b|]|]; try discriminate; intros _ i [o H]; discriminate. Qed.
Lemma classifier_some m k m' p i : in_classifier m k = Some (m', p, i) -> replaced m k m' p i /\ (p = AtClassifier \/ exists j, p = InClassifier j /\ forall j' i', (j < j')%nat -> ~ linear_at m (InClassifier j') i').
Proof.
  unfold in_classifier. destruct (n_classifier m) as [[[a b|]|[] items]|] eqn:E; try discriminate.
  - intros [= <- <- <-]. split; [|left; reflexivity]. split; [exact I|]. split; [exists b; cbn; rewrite E; reflexivity|]. split; [reflexivity|]. others. rewrite E. reflexivity.
  - destruct (last_linear items) as [[j a]|] eqn:EL; [|discriminate]. intros [= <- <- <-]. destruct (last_linear_some _ _ _ EL) as [[o HA] HB]. split.
    + split; [exists items; exact E|]. split; [exists o; cbn; unfold item; rewrite E; exact HA|]. split.
      * cbn. unfold item. rewrite nth_put by (apply (option_len _ _ _ _ HA)). rewrite Nat.eqb_refl. reflexivity.
      * intros q Hq. destruct q as [| |j'| |j'|]; cbn; try reflexivity; unfold item; rewrite E; try reflexivity. rewrite nth_put by (apply (option_len _ _ _ _ HA)).
        destruct (Nat.eqb_spec j' j) as [->|]; [congruence|reflexivity].
    + right. exists j. split; [reflexivity|]. intros j' i' Hj [o' Ho]. cbn in Ho. unfold item in Ho. rewrite E in Ho. exact (HB j' i' o' Hj Ho).
Qed.
Lemma classifier_none m k : in_classifier m k = None -> forall i, ~ linear_at m AtClassifier i /\ forall j, may_be_head m (InClassifier j) -> ~ linear_at m (InClassifier j) i.
Proof.
  unfold in_classifier, linear_at. cbn. intros H i. split.
  - intros [o Ho]. destruct (n_classifier m) as [[l|]|]; try discriminate. injection Ho as ->. discriminate.
  - intros j [items E] [o Ho]. rewrite E in H, Ho. unfold item in Ho. destruct (last_linear items) as [[? ?]|] eqn:EL; [discriminate|]. exact (last_linear_none _ EL j i o Ho).
Qed.
Lemma heads_some m k m' p i : in_heads m k = Some (m', p, i) -> replaced m k m' p i /\ (p = AtHeads \/ exists j, p = InHeads j).
Proof.
  unfold in_heads. destruct (n_heads m) as [[[a b|]|bb items]|] eqn:E; try discriminate.
  - intros [= <- <- <-]. split; [|left; reflexivity]. split; [exact I|]. split; [exists b; cbn; rewrite E; reflexivity|]. split; [reflexivity|]. others. rewrite E. reflexivity.
  - destruct (named_head items) as [[j [a b|]]|] eqn:EL; try discriminate. intros [= <- <- <-]. destruct (named_some _ _ _ EL) as [HA HB]. split; [|right; exists j; reflexivity].
    split; [exists bb, items; split; [exact E|]; split; [rewrite HA; reflexivity|exact HB]|]. split; [exists b; cbn; unfold item; rewrite E, HA; reflexivity|]. split.
    + cbn. unfold item. rewrite nth_put by (apply (nth_len _ _ _ HA)). rewrite Nat.eqb_refl. reflexivity.
    + intros q Hq. destruct q as [| |j'| |j'|]; cbn; try reflexivity; unfold item; rewrite E; try reflexivity. rewrite nth_put by (apply (nth_len _ _ _ HA)).
      destruct (Nat.eqb_spec j' j) as [->|]; [congruence|reflexivity].
Qed.
Lemma heads_none m k : in_heads m k = None -> forall i, ~ linear_at m AtHeads i /\ forall j, may_be_head m (InHeads j) -> ~ linear_at m (InHeads j) i.
Proof.
  unfold in_heads, linear_at. cbn. intros H i. split.
  - intros [o Ho]. destruct (n_heads m) as [[l|]|]; try discriminate. injection Ho as ->. discriminate.
  - intros j (b & items & E & Hh & Hf) [o Ho]. rewrite E in H, Ho. unfold item in Ho. destruct (named_head items) as [[j0 l0]|] eqn:EL.
    + destruct (named_some _ _ _ EL) as [HA HB]. assert (j0 = j) as ->.
      { destruct (Nat.lt_trichotomy j0 j) as [Hl|[Hl|Hl]]; [|exact Hl|]; exfalso; [apply (Hf j0 Hl); rewrite HA; reflexivity|apply (HB j Hl Hh)]. }
      rewrite HA in Ho. injection Ho as ->. discriminate.
    + exact (named_none _ EL j Hh).
Qed.
Lemma head_some m k m' p i : in_head m k = Some (m', p, i) -> replaced m k m' p i /\ p = AtHead.
Proof.
  unfold in_head. destruct (n_head m) as [[a b|]|] eqn:E; try discriminate. intros [= <- <- <-]. split; [|reflexivity]. split; [exact I|]. split; [exists b; exact E|]. split; [reflexivity|]. others.
Qed.
Lemma head_none m k : in_head m k = None -> forall i, ~ linear_at m AtHead i.
Proof. unfold in_head, linear_at. cbn. destruct (n_head m) as [[a b|]|]; try discriminate; intros _ i [o H]; discriminate. Qed.
Lemma replace_ok m k m' p i : replace_classifier m k = Ok (m', p, i) ->
  replaced m k m' p i /\ (p <> AtFc -> forall i', ~ linear_at m AtFc i') /\ (forall j, p = InClassifier j -> forall j' i', (j < j')%nat -> ~ linear_at m (InClassifier j') i') /\
  ((exists j, p = InHeads j) \/ p = AtHeads \/ p = AtHead -> forall q i', q = AtClassifier \/ (exists j, q = InClassifier j) -> may_be_head m q -> ~ linear_at m q i').
Proof.
  unfold replace_classifier. destruct (in_fc m k) as [[[m1 p1] i1]|] eqn:E1.
  { intros [= <- <- <-]. destruct (fc_some _ _ _ _ _ E1) as [HR ->]. split; [exact HR|]. repeat split; try congruence. intros [[j Hj]|[Hj|Hj]]; discriminate. }
  assert (N1 := fc_none _ _ E1). destruct (in_classifier m k) as [[[m1 p1] i1]|] eqn:E2.
  { intros [= <- <- <-]. destruct (classifier_some _ _ _ _ _ E2) as [HR Hp]. split; [exact HR|]. split; [intros _; exact N1|]. split.
    - intros j ->. destruct Hp as [Hp|(j0 & Hp & HB)]; [discriminate|]. injection Hp as <-. exact HB.
    - destruct Hp as [->|(j0 & -> & _)]; intros [[j Hj]|[Hj|Hj]]; discriminate. }
  assert (N2 := classifier_none _ _ E2). assert (N2' : forall q i', q = AtClassifier \/ (exists j, q = InClassifier j) -> may_be_head m q -> ~ linear_at m q i').
  { intros q i' [->|[j ->]] Hm; [apply N2|apply (proj2 (N2 i')), Hm]. }
  destruct (in_heads m k) as [[[m1 p1] i1]|] eqn:E3.
  { intros [= <- <- <-]. destruct (heads_some _ _ _ _ _ E3) as [HR Hp]. split; [exact HR|]. split; [intros _; exact N1|]. split; [|intros _; exact N2'].
    intros j ->. destruct Hp as [Hp|[j0 Hp]]; discriminate. }
  destruct (in_head m k) as [[[m1 p1] i1]|] eqn:E4; [|discriminate]. intros [= <- <- <-]. destruct (head_some _ _ _ _ _ E4) as [HR ->]. split; [exact HR|]. split; [intros _; exact N1|]. split; [discriminate|intros _; exact N2'].
Qed.
Lemma replace_none m k : (exists x, replace_classifier m k = Err x) <-> forall p i, may_be_head m p -> ~ linear_at m p i.
Proof.
  split.
  - intros [x Hx] p i Hm. unfold replace_classifier in Hx. destruct (in_fc m k) eqn:E1; [discriminate|]. destruct (in_classifier m k) eqn:E2; [discriminate|]. destruct (in_heads m k) eqn:E3; [discriminate|].
    destruct (in_head m k) eqn:E4; [discriminate|]. destruct p.
    + apply (fc_none _ _ E1). + apply (classifier_none _ _ E2). + apply (proj2 (classifier_none _ _ E2 i)), Hm. + apply (heads_none _ _ E3). + apply (proj2 (heads_none _ _ E3 i)), Hm. + apply (head_none _ _ E4).
  - intros H. destruct (replace_classifier m k) as [[[m' p] i]|x] eqn:E; [|eauto]. exfalso. destruct (replace_ok _ _ _ _ _ E) as [(H1 & H2 & _) _]. exact (H p i H1 H2).
Qed.

(* ---- images *)
Lemma same_shape_eq a b : same_shape a b = true <-> a = b.
Proof. destruct a as [[c h] w], b as [[c' h'] w']. cbn. rewrite !andb_true_iff, !Nat.eqb_eq. split; [intros [[-> ->] ->]; reflexivity|intros [= -> -> ->]; auto]. Qed.
Section Pictures.
Variable V : Type.
Lemma lay_ok sp known (x : arr V) known' s p : lay V sp known x = (known', Ok (s, p)) ->
  exists val, reads_as (s_layout sp) known (s_shape sp) x (p_n V p) s val /\ (known' = known \/ known' = Some s) /\
    s = (p_c V p, p_h V p, p_w V p) /\ forall i k u v, p_at V p i k u v = val i k u v.
Proof.
  destruct x as [n d f|n a b f|n a b c f|k]; cbn [lay].
  - destruct (match known with Some s => _ | None => _ end) as [[[c h] w]|e] eqn:E; [|discriminate]. destruct (Nat.eqb_spec d (c * h * w)) as [->|]; [|discriminate]. intros [= <- <- <-]. cbn.
    exists (fun i k u v => f i (k * (h * w) + u * w + v)%nat). split; [|split; [right; reflexivity|split; [reflexivity|]; intros; f_equal; ring]]. constructor. unfold flat_shape. destruct known as [s|].
    + injection E as ->. left. reflexivity.
    + right. split; [reflexivity|]. destruct (s_shape sp) as [[|a [|b [|q [|z l]]]]|]; try discriminate; injection E as <- <- <-; auto.
  - intros [= <- <- <-]. eexists. split; [constructor|]. cbn. auto.
  - destruct (String.eqb_spec (s_layout sp) "channels_last") as [El|_].
    + intros [= <- <- <-]. eexists. split; [apply reads_last; exact El|]. cbn. auto.
    + destruct (String.eqb_spec (s_layout sp) "channels_first") as [El|_]; [|discriminate]. intros [= <- <- <-]. eexists. split; [apply reads_first; exact El|]. cbn. auto.
  - discriminate.
Qed.
Lemma lay_reads sp known (x : arr V) n s val : reads_as (s_layout sp) known (s_shape sp) x n s val -> exists known' p, lay V sp known x = (known', Ok (s, p)) /\ (known = None \/ known' = known) /\ p_n V p = n /\ s = (p_c V p, p_h V p, p_w V p).
Proof.
  intros H. destruct H as [n c h w f El|n c h w f El|n h w f|n c h w f Hf]; cbn [lay].
  - rewrite El. cbn [String.eqb Ascii.eqb Bool.eqb]. repeat eexists; auto.
  - rewrite El. cbn [String.eqb Ascii.eqb Bool.eqb]. repeat eexists; auto.
  - repeat eexists; auto.
  - destruct Hf as [->|[-> Hg]].
    + rewrite Nat.eqb_refl. repeat eexists; auto.
    + destruct Hg as [->|[-> ->]]; rewrite Nat.eqb_refl; repeat eexists; auto.
Qed.
Lemma channels_ok sp expected p q : channels V sp expected p = Ok q -> shown (s_repeat sp) expected (p_n V p) (p_c V p, p_h V p, p_w V p) (p_at V p) q.
Proof.
  unfold channels, shown. destruct expected as [e|].
  - destruct (Nat.eqb_spec (p_c V p) e) as [<-|Hne].
    + intros [= <-]. repeat split; auto.
    + destruct (s_repeat sp) eqn:Er; cbn [andb]; [|discriminate]. destruct (Nat.eqb_spec (p_c V p) 1) as [Hc|]; cbn [andb]; [|discriminate]. destruct (Nat.eqb_spec e 3) as [->|]; [|discriminate].
      intros [= <-]. cbn. repeat split; auto 8.
  - intros [= <-]. repeat split; auto.
Qed.
Lemma channels_can sp expected p : showable (s_repeat sp) expected (p_c V p, p_h V p, p_w V p) <-> exists q, channels V sp expected p = Ok q.
Proof.
  unfold channels, showable. destruct expected as [e|]; [|split; [eauto|auto]]. split.
  - intros [H|[[= ->]|(Hr & Hc & [= ->])]]; [discriminate| |].
    + rewrite Nat.eqb_refl. eauto.
    + rewrite Hr, Hc. cbn. eauto.
  - intros [q H]. destruct (Nat.eqb_spec (p_c V p) e) as [<-|Hne]; [auto|]. destruct (s_repeat sp); cbn [andb] in H; [|discriminate]. destruct (Nat.eqb_spec (p_c V p) 1); cbn [andb] in H; [|discriminate].
    destruct (Nat.eqb_spec e 3) as [->|]; [|discriminate]. auto.
Qed.
Lemma shown_ext r e n s val val' (p : pic V) : (forall i k u v, val i k u v = val' i k u v) -> shown r e n s val p -> shown r e n s val' p.
Proof. unfold shown. destruct s as [[c h] w]. intros H (H1 & H2 & H3 & [(H4 & H5 & H6)|(H4 & H5 & H6 & H7 & H8)]); repeat split; auto; [left|right]; repeat split; auto; intros; rewrite <- H; auto. Qed.
Lemma prepare_fit sp known expected (x : arr V) known' p : prepare V sp known expected true x = (known', Ok p) ->
  exists n s val, reads_as (s_layout sp) known (s_shape sp) x n s val /\ known' = Some s /\ shown (s_repeat sp) expected n s val p.
Proof.
  unfold prepare. destruct (lay V sp known x) as [k1 [[s q]|e]] eqn:E; [|discriminate]. intros [= <- H]. destruct (lay_ok _ _ _ _ _ _ E) as (val & H1 & _ & Hs & H2).
  exists (p_n V q), s, val. split; [exact H1|]. split; [reflexivity|]. rewrite Hs. apply (shown_ext _ _ _ _ (p_at V q)); [exact H2|]. apply channels_ok, H.
Qed.
Lemma prepare_fit_can sp known expected (x : arr V) : (exists p, snd (prepare V sp known expected true x) = Ok p) <-> exists n s val, reads_as (s_layout sp) known (s_shape sp) x n s val /\ showable (s_repeat sp) expected s.
Proof.
  unfold prepare. split.
  - intros [p Hp]. destruct (lay V sp known x) as [k1 [[s q]|e]] eqn:E; [|discriminate]. cbn in Hp. destruct (lay_ok _ _ _ _ _ _ E) as (val & H1 & _ & Hs & _). exists (p_n V q), s, val. split; [exact H1|].
    rewrite Hs. apply channels_can. eauto.
  - intros (n & s & val & H1 & H2). destruct (lay_reads _ _ _ _ _ _ H1) as (k1 & q & -> & _ & _ & Hs). cbn. apply channels_can. rewrite <- Hs. exact H2.
Qed.
Lemma prepare_predict_can sp s0 expected (x : arr V) : (exists p, snd (prepare V sp (Some s0) expected false x) = Ok p) <-> (exists n val, reads_as (s_layout sp) (Some s0) (s_shape sp) x n s0 val) /\ showable (s_repeat sp) expected s0.
Proof.
  unfold prepare. split.
  - intros [p Hp]. destruct (lay V sp (Some s0) x) as [k1 [[s q]|e]] eqn:E; [|discriminate]. cbn in Hp. destruct (lay_ok _ _ _ _ _ _ E) as (val & H1 & Hk & Hs & _).
    assert (Hss : s = s0 /\ exists q', channels V sp expected q = Ok q').
    { destruct Hk as [->| ->].
      - destruct (same_shape s s0) eqn:Es; [|discriminate]. apply same_shape_eq in Es. split; [exact Es|]. eauto.
      - destruct (same_shape s s) eqn:Es; [|discriminate]. cbn in Hp. split; [|eauto]. clear Hp Es. destruct x; cbn [lay] in E.
        + destruct s0 as [[c h] w]. destruct (Nat.eqb _ _); [|discriminate]. injection E as <- _. reflexivity.
        + injection E as -> _ _. reflexivity.
        + injection E as -> _. reflexivity.
        + discriminate. }
    destruct Hss as [-> Hq]. split; [eauto|]. rewrite Hs. apply channels_can, Hq.
  - intros ((n & val & H1) & H2). destruct (lay_reads _ _ _ _ _ _ H1) as (k1 & q & -> & [Hk|Hk] & _ & Hs); [discriminate|]. rewrite Hk. rewrite (proj2 (same_shape_eq s0 s0) eq_refl). cbn. apply channels_can. rewrite <- Hs. exact H2.
Qed.
Lemma prepare_predict_known sp s0 expected (x : arr V) : fst (prepare V sp (Some s0) expected false x) = Some s0.
Proof.
  unfold prepare. assert (H : fst (lay V sp (Some s0) x) = Some s0) by (destruct x, s0 as [[c0 h0] w0]; reflexivity). destruct (lay V sp (Some s0) x) as [k1 [[s q]|e]]; cbn in H; subst; [|reflexivity].
  destruct (same_shape s s0); reflexivity.
Qed.
End Pictures.

(* ---- training *)
Section Training.
Context {V B H Op G : Type}.
Variable step : bool -> bool -> list (row V * nat) -> B * H * Op * G -> B * H * Op * G.
Variable randperm : G -> nat -> list nat * G.
Variable sp : settings.
Variable p : pic V.
Variables (y classes : list Z) (codes : list nat).
Hypothesis Hcodes : encode_labels y = (codes, classes).
Hypothesis Hn : p_n V p = length y.
Let data := combine (rows V p) codes.
Lemma data_length : length data = length y.
Proof. unfold data. rewrite combine_length. unfold rows. rewrite map_length, seq_length, Hn. destruct (encode_labels_spec _ _ _ Hcodes) as (_ & Hl & _). lia. Qed.
Lemma data_entry i : (i < length y)%nat -> exists e, nth_error data i = Some e /\ entry_of p y classes i e.
Proof.
  intros Hi. destruct (encode_labels_spec _ _ _ Hcodes) as (_ & Hl & Hc). destruct (Hc i Hi) as [H1 H2].
  exists ((fun k u v => p_at V p i k u v), nth i codes 0%nat). split.
  - unfold data. rewrite <- Hn in Hi. revert Hi. assert (Hr : nth_error (rows V p) i = Some (fun k u v => p_at V p i k u v) \/ (p_n V p <= i)%nat).
    { unfold rows. destruct (Nat.lt_ge_cases i (p_n V p)) as [Hlt|]; [left|right; assumption]. rewrite nth_error_map. rewrite (nth_error_nth' _ 0%nat) by (rewrite seq_length; exact Hlt). rewrite seq_nth by exact Hlt. reflexivity. }
    intros Hi. destruct Hr as [Hr|Hr]; [|lia]. assert (Hcn : nth_error codes i = Some (nth i codes 0%nat)) by (apply nth_error_nth'; lia).
    clear -Hr Hcn. revert Hr Hcn. generalize (rows V p) (fun k u v => p_at V p i k u v) (nth i codes 0%nat). intros l a c. revert i codes. induction l as [|x l IH]; intros [|i] [|z codes] Hr Hcn; cbn in *; try discriminate; [injection Hr as ->; injection Hcn as ->; reflexivity|apply IH; assumption].
  - split; [exact Hi|]. cbn. auto.
Qed.
Lemma steps_stepped bs : (forall b i, In b bs -> In i b -> (i < length y)%nat) -> forall s, stepped step (s_freeze sp) p y classes bs s (steps V B H Op G step sp data bs s).
Proof.
  induction bs as [|b bs IH]; intros Hb s; [constructor|]. cbn [steps].
  set (E := flat_map _ b). assert (HE : Forall2 (entry_of p y classes) b E).
  { unfold E. assert (Hi : forall i, In i b -> (i < length y)%nat) by (intros i; apply Hb; left; reflexivity). clear -Hi Hcodes Hn randperm. induction b as [|i b IH]; [constructor|]. cbn [flat_map].
    destruct (data_entry i (Hi i (or_introl eq_refl))) as (e & -> & He). constructor; [exact He|]. apply IH. intros j Hj. apply Hi. right. exact Hj. }
  apply (stepped_batch _ _ _ _ _ _ _ E (mode V sp E)); [exact HE| |apply IH; intros b' i Hb'; apply Hb; right; exact Hb'].
  rewrite (ListFacts.Forall2_length _ _ _ HE). unfold mode. destruct (s_freeze sp); [split; [discriminate|intros [H1 _]; discriminate]|]. destruct (Nat.eqb_spec (length E) 1); cbn; split; auto; try discriminate. intros [_ H1]. contradiction.
Qed.
Hypothesis Hperm : randperm_ok randperm.
Hypothesis Hsize : (0 < s_batch sp)%Z.
Lemma train_trained k : forall s, trained step randperm (s_freeze sp) (Z.to_nat (s_batch sp)) p y classes k s (train V B H Op G randperm step sp data k s).
Proof.
  induction k as [|k IH]; intros [[[b h] o] g]; [constructor|]. cbn [train]. rewrite data_length. assert (HP := Hperm g (length y)). destruct (randperm g (length y)) as [order g'] eqn:E. cbn [fst] in HP.
  assert (HL : length order = length y) by (rewrite (Permutation_length HP); apply seq_length).
  destruct (batches_spec (Z.to_nat (s_batch sp)) ltac:(lia) (length y) order ltac:(lia)) as (B1 & B2 & B3).
  eapply trained_epoch with (bs := batches (length y) (Z.to_nat (s_batch sp)) order).
  - split; [rewrite B1; exact HP|]. split; assumption.
  - rewrite E, B1. reflexivity.
  - rewrite E. cbn [snd]. apply steps_stepped. intros b0 i Hb Hi. assert (Hin : In i order) by (rewrite <- B1; apply in_concat; eauto). apply (Permutation_in i HP) in Hin. apply in_seq in Hin. lia.
  - apply IH.
Qed.
End Training.
Lemma frozen_keeps {V B H Op G} (step : bool -> bool -> list (row V * nat) -> B * H * Op * G -> B * H * Op * G) randperm sp data : eval_keeps step -> s_freeze sp = true ->
  forall k b h o g, fst (fst (fst (train V B H Op G randperm step sp data k (b, h, o, g)))) = b.
Proof.
  intros Hk Hf. assert (HS : forall bs b h o g, exists h' o', steps V B H Op G step sp data bs (b, h, o, g) = (b, h', o', g)).
  { induction bs as [|x bs IH]; intros b h o g; [exists h, o; reflexivity|]. cbn [steps]. unfold mode. rewrite Hf. cbn [negb]. destruct (Hk (flat_map (fun i => match nth_error data i with Some e => [e] | None => [] end) x) b h o g) as (h' & o' & ->). apply IH. }
  induction k as [|k IH]; intros b h o g; [reflexivity|]. cbn [train]. destruct (randperm g (length data)) as [order g']. destruct (HS (batches (length data) (Z.to_nat (s_batch sp)) order) b h o g') as (h' & o' & ->). apply IH.
Qed.
