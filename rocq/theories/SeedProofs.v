(* Proofs about the seed derivations. *)
From Coq Require Import String Ascii Decimal DecimalString DecimalZ DecimalFacts.
From Coq Require Import ZifyBool ZifyNat.
From Verif Require Import Prelude ListFacts SeedModel.
Local Open Scope string_scope.

Lemma dec_inj a b : dec a = dec b -> a = b.
Proof.
  unfold dec. intros H.
  assert (E : NilEmpty.int_of_string (NilEmpty.string_of_int (Z.to_int a))
            = NilEmpty.int_of_string (NilEmpty.string_of_int (Z.to_int b))) by (rewrite H; reflexivity).
  rewrite !NilEmpty.isi in E. injection E as E.
  rewrite <- (DecimalZ.of_to a), <- (DecimalZ.of_to b), E. reflexivity.
Qed.

(* c occurs in s *)
Fixpoint occurs (c : ascii) (s : string) : Prop :=
  match s with EmptyString => False | String x r => x = c \/ occurs c r end.

Definition digit_or_minus (c : ascii) : Prop :=
  In c ["-"; "0"; "1"; "2"; "3"; "4"; "5"; "6"; "7"; "8"; "9"]%char.

Lemma uint_chars d : forall c, occurs c (NilEmpty.string_of_uint d) -> digit_or_minus c.
Proof.
  unfold digit_or_minus. induction d; cbn; intros c Hc; [contradiction| | | | | | | | | |];
    (destruct Hc as [<-|Hc]; [tauto|apply IHd in Hc; cbn in Hc; exact Hc]).
Qed.

Lemma dec_chars z : forall c, occurs c (dec z) -> digit_or_minus c.
Proof.
  unfold dec. intros c. destruct (Z.to_int z) as [d|d]; cbn.
  - apply uint_chars.
  - intros [<-|H]; [unfold digit_or_minus; cbn; tauto|apply (uint_chars _ _ H)].
Qed.

(* splitting at the first occurrence of a separator that occurs in neither prefix *)
Lemma sep_inj (c : ascii) a b a' b' :
  ~ occurs c a -> ~ occurs c a' ->
  a ++ String c b = a' ++ String c b' -> a = a' /\ b = b'.
Proof.
  revert a'. induction a as [|x r IH]; intros [|x' r'] Ha Ha' H; cbn in *.
  - injection H as H. auto.
  - injection H as H1 H2. subst. exfalso. apply Ha'. auto.
  - injection H as H1 H2. subst. exfalso. apply Ha. auto.
  - injection H as -> H2. destruct (IH r') as [-> ->]; [tauto|tauto|exact H2|]. auto.
Qed.

Lemma dec_no_sep z c : c = ":"%char \/ c = "|"%char -> ~ occurs c (dec z).
Proof.
  intros Hc H. apply dec_chars in H. unfold digit_or_minus in H. cbn in H.
  destruct Hc as [-> | ->]; intuition discriminate.
Qed.

Lemma sampling_payload_inj s l s' l' :
  sampling_payload s l = sampling_payload s' l' -> s = s' /\ l = l'.
Proof.
  unfold sampling_payload. cbn [append]. intros H.
  apply sep_inj in H; [|apply dec_no_sep; auto..]. destruct H as [H1 H2].
  split; [apply dec_inj, H1|exact H2].
Qed.

Lemma preprocess_payload_inj s i l s' i' l' :
  preprocess_payload s i l = preprocess_payload s' i' l' -> s = s' /\ i = i' /\ l = l'.
Proof.
  unfold preprocess_payload. cbn [append]. intros H.
  apply sep_inj in H; [|apply dec_no_sep; auto..]. destruct H as [H1 H].
  apply sep_inj in H; [|apply dec_no_sep; auto..]. destruct H as [H2 H3].
  split; [apply dec_inj, H1|]. split; [apply dec_inj, H2|exact H3].
Qed.

Lemma augment_payload_inj s e i s' e' i' :
  augment_payload s e i = augment_payload s' e' i' -> s = s' /\ e = e' /\ i = i'.
Proof.
  unfold augment_payload. cbn [append]. intros H.
  apply sep_inj in H; [|apply dec_no_sep; auto..]. destruct H as [H1 H].
  apply sep_inj in H; [|apply dec_no_sep; auto..]. destruct H as [H2 H3].
  split; [apply dec_inj, H1|]. split; apply dec_inj; assumption.
Qed.

Lemma from_bytes_big_bound b :
  (forall x, In x b -> 0 <= x < 256) -> 0 <= from_bytes_big b < 256 ^ lenZ b.
Proof.
  intros H. unfold from_bytes_big.
  assert (G : forall l acc n, (forall x, In x l -> 0 <= x < 256) -> 0 <= n -> 0 <= acc < 256 ^ n ->
    0 <= fold_left (fun acc x => acc * 256 + x) l acc < 256 ^ (n + lenZ l)).
  { induction l as [|x r IH]; intros acc n Hl Hn Ha; cbn [fold_left].
    - unfold lenZ; cbn. rewrite Z.add_0_r. exact Ha.
    - assert (0 <= x < 256) by (apply Hl; left; reflexivity).
      replace (n + lenZ (x :: r)) with (n + 1 + lenZ r) by (unfold lenZ; cbn; lia).
      apply IH; [intros y Hy; apply Hl; right; exact Hy|lia|].
      rewrite Z.pow_add_r by lia. change (256 ^ 1) with 256. nia. }
  replace (256 ^ lenZ b) with (256 ^ (0 + lenZ b)) by (f_equal; lia).
  apply G; [exact H|lia|]. cbn. lia.
Qed.

Lemma derive_seed_range hash s l :
  (forall p x, In x (hash p) -> 0 <= x < 256) -> 0 <= derive_seed hash s l < 2 ^ 32.
Proof.
  intros H. unfold derive_seed. set (b := firstn 4 _).
  assert (Hb : forall x, In x b -> 0 <= x < 256).
  { intros x Hx. apply (H (sampling_payload s l)). unfold b in Hx.
    rewrite <- (firstn_skipn 4 (hash (sampling_payload s l))). apply in_or_app. auto. }
  pose proof (from_bytes_big_bound b Hb) as Hr.
  assert (lenZ b <= 4) by (unfold lenZ, b; rewrite firstn_length; lia).
  assert (256 ^ lenZ b <= 256 ^ 4) by (apply Z.pow_le_mono_r; lia).
  change (2 ^ 32) with (256 ^ 4). lia.
Qed.

Lemma derive_step_seed_range hash s i l :
  (forall p x, In x (hash p) -> 0 <= x < 256) -> 0 <= derive_step_seed hash s i l < 2 ^ 32.
Proof.
  intros H. unfold derive_step_seed. set (b := firstn 4 _).
  assert (Hb : forall x, In x b -> 0 <= x < 256).
  { intros x Hx. apply (H (preprocess_payload s i l)). unfold b in Hx.
    rewrite <- (firstn_skipn 4 (hash (preprocess_payload s i l))). apply in_or_app. auto. }
  pose proof (from_bytes_big_bound b Hb) as Hr.
  assert (lenZ b <= 4) by (unfold lenZ, b; rewrite firstn_length; lia).
  assert (256 ^ lenZ b <= 256 ^ 4) by (apply Z.pow_le_mono_r; lia).
  change (2 ^ 32) with (256 ^ 4). lia.
Qed.

Lemma seed_to_rng_seed_range hash s e i : 0 <= seed_to_rng_seed hash s e i < 2 ^ 32.
Proof. apply Z.mod_pos_bound. reflexivity. Qed.

Lemma mix_seed32_range s i : 0 <= mix_seed32 s i < 2 ^ 32.
Proof.
  unfold mix_seed32. cbv zeta. set (x := Z.lxor _ _). clearbody x.
  change 4294967295 with (Z.ones 32). rewrite Z.land_ones by lia.
  apply Z.mod_pos_bound. reflexivity.
Qed.

Lemma mix_seed32_shift s i d : mix_seed32 (s + d) i = mix_seed32 s (i + d).
Proof.
  unfold mix_seed32. replace (s + d + 11400714819323198485 + i) with (s + 11400714819323198485 + (i + d)) by lia.
  reflexivity.
Qed.
