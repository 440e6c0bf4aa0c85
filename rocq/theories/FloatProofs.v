(* py_round is rounding to nearest, ties to even *)
From Coq Require Import ZArith SpecFloat QArith Qround Qabs Qpower Lqa.
From Verif Require Import Prelude FloatModel SamplingSpec.
Local Open Scope Z_scope.

Lemma nearest_even_div n d : 0 < d ->
  nearest_even (inject_Z n / inject_Z d)%Q (round_half_even_div n d).
Proof.
  intros Hd. unfold round_half_even_div.
  pose proof (Z.div_mod n d ltac:(lia)) as Hdm.
  pose proof (Z.mod_pos_bound n d Hd) as Hb.
  set (q := n / d) in *. set (r := n mod d) in *. clearbody q r.
  assert (Hq : (inject_Z n / inject_Z d == inject_Z q + inject_Z r / inject_Z d)%Q).
  { rewrite Hdm. rewrite inject_Z_plus, inject_Z_mult. field.
    intros H. apply (inject_Z_injective d 0) in H. lia. }
  assert (Hdq : (0 < inject_Z d)%Q) by (change (inject_Z 0 < inject_Z d)%Q; rewrite <- Zlt_Qlt; exact Hd).
  assert (Key : forall (k : Z),
     (2 * Qabs (inject_Z n / inject_Z d - inject_Z k) ==
       inject_Z (2 * Z.abs (n - k * d)) / inject_Z d)%Q).
  { intros k.
    assert (E : (inject_Z n / inject_Z d - inject_Z k == inject_Z (n - k * d) / inject_Z d)%Q).
    { unfold Z.sub. rewrite inject_Z_plus, inject_Z_opp, inject_Z_mult. field.
      intros H. apply (inject_Z_injective d 0) in H. lia. }
    rewrite E. unfold Qdiv. rewrite Qabs_Qmult.
    rewrite (Qabs_pos (/ inject_Z d)%Q) by (apply Qlt_le_weak, Qinv_lt_0_compat, Hdq).
    rewrite inject_Z_mult.
    assert (Ha : (Qabs (inject_Z (n - k * d)) == inject_Z (Z.abs (n - k * d)))%Q) by reflexivity.
    rewrite Ha. ring. }
  assert (Hle : forall k, 2 * Z.abs (n - k * d) <= d ->
     (2 * Z.abs (n - k * d) = d -> Z.even k = true) ->
     nearest_even (inject_Z n / inject_Z d)%Q k).
  { intros k H1 H2. split.
    - rewrite Key. apply Qle_shift_div_r; [exact Hdq|].
      rewrite Qmult_1_l. rewrite <- Zle_Qle. exact H1.
    - rewrite Key. intros He. apply H2.
      assert (inject_Z (2 * Z.abs (n - k * d)) == inject_Z d)%Q as Hz.
      { rewrite <- (Qmult_1_l (inject_Z d)). rewrite <- He. field.
        intros H. apply (inject_Z_injective d 0) in H. lia. }
      exact (proj1 (inject_Z_injective _ _) Hz). }
  destruct (Z.ltb_spec (2 * r) d) as [H1|H1].
  - apply Hle; [|intros; exfalso]; nia.
  - destruct (Z.ltb_spec d (2 * r)) as [H2|H2].
    + apply Hle; [|intros; exfalso]; nia.
    + destruct (Z.even q) eqn:He.
      * apply Hle; [nia|intros; exact He].
      * apply Hle; [nia|]. intros _.
        rewrite Z.even_add. rewrite He. reflexivity.
Qed.

Lemma nearest_even_Z z : nearest_even (inject_Z z) z.
Proof.
  unfold nearest_even.
  assert (E : (inject_Z z - inject_Z z == 0)%Q) by ring.
  rewrite E. split; [discriminate|]. intros H. discriminate.
Qed.

Lemma Qpower_2_pos e : 0 <= e -> (Qpower 2 e == inject_Z (2 ^ e))%Q.
Proof.
  intros He. rewrite <- (Zpower_Qpower 2 e He). reflexivity.
Qed.

Lemma py_round_spec x r : py_round x = Ok r ->
  exists q, f64_value x = Some q /\ nearest_even q r.
Proof.
  destruct x as [s|s| |s m e]; cbn; intros H; try discriminate.
  - injection H as <-. exists 0%Q. split; [reflexivity|]. apply (nearest_even_Z 0).
  - injection H as <-. eexists; split; [reflexivity|].
    set (v := if s then Z.neg m else Z.pos m).
    assert (Hext : forall q q' k, (q == q')%Q -> nearest_even q' k -> nearest_even q k).
    { intros q q' k E [H1 H2]. unfold nearest_even. rewrite E. split; assumption. }
    destruct (Z.leb_spec 0 e) as [He|He].
    + eapply Hext; [|apply nearest_even_Z].
      rewrite inject_Z_mult, Qpower_2_pos by exact He. reflexivity.
    + eapply Hext; [|apply nearest_even_div; apply Z.pow_pos_nonneg; lia].
      unfold Qdiv. rewrite <- (Qpower_2_pos (- e)) by lia.
      rewrite <- Qpower_opp. rewrite Z.opp_involutive. reflexivity.
Qed.

Lemma round_mul_spec f n r : round_mul f n = Ok r -> rounded_share f n r.
Proof. apply py_round_spec. Qed.

Lemma nearest_even_unique q a b : nearest_even q a -> nearest_even q b -> a = b.
Proof.
  intros (Ha & Ea) (Hb & Eb).
  assert (Hd : (Qabs (inject_Z a - inject_Z b) <= 1)%Q).
  { setoid_replace (inject_Z a - inject_Z b)%Q
      with ((q - inject_Z b) + - (q - inject_Z a))%Q by ring.
    eapply Qle_trans; [apply Qabs_triangle|]. rewrite Qabs_opp. lra. }
  assert (Hab : Z.abs (a - b) <= 1).
  { apply Qabs_Qle_condition in Hd. destruct Hd as [Hl Hu].
    unfold Qle in Hl, Hu. cbn in Hl, Hu. lia. }
  destruct (Z.eq_dec a b) as [|Hne]; [assumption|exfalso].
  assert (Hsum : (1 <= Qabs (q - inject_Z a) + Qabs (q - inject_Z b))%Q).
  { assert (Hone : (1 == Qabs (inject_Z a - inject_Z b))%Q).
    { assert (a = b + 1 \/ b = a + 1) as [->| ->] by lia; rewrite inject_Z_plus.
      - setoid_replace (inject_Z b + inject_Z 1 - inject_Z b)%Q with 1%Q by (unfold inject_Z; ring).
        reflexivity.
      - setoid_replace (inject_Z a - (inject_Z a + inject_Z 1))%Q with (-(1))%Q by (unfold inject_Z; ring).
        reflexivity. }
    rewrite Hone.
    setoid_replace (inject_Z a - inject_Z b)%Q
      with (- (q - inject_Z a) + (q - inject_Z b))%Q by ring.
    eapply Qle_trans; [apply Qabs_triangle|]. rewrite Qabs_opp. apply Qle_refl. }
  assert (Z.even a = true) by (apply Ea; lra).
  assert (Z.even b = true) by (apply Eb; lra).
  assert (a = b + 1 \/ b = a + 1) as [->| ->] by lia;
    rewrite Z.even_add in *; cbn in *; destruct (Z.even _); discriminate.
Qed.

Lemma rounded_share_unique f n a b : rounded_share f n a -> rounded_share f n b -> a = b.
Proof.
  intros (q & Hq & Ha) (q' & Hq' & Hb). assert (q = q') by congruence. subst.
  eapply nearest_even_unique; eassumption.
Qed.
