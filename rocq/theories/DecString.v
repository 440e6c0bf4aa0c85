(* Facts about str(int) in decimal, used for file names. *)
From Coq Require Import String Ascii ZArith Lia.
From Coq Require Import DecimalString DecimalZ Decimal.
Local Open Scope string_scope.

(* str(z) *)
Definition dec (z : Z) : string := NilZero.string_of_int (Z.to_int z).

Fixpoint count_char (c : ascii) (s : string) : nat :=
  match s with
  | EmptyString => 0
  | String a r => (if Ascii.eqb a c then 1 else 0) + count_char c r
  end.
Lemma count_app c a b : count_char c (a ++ b) = (count_char c a + count_char c b)%nat.
Proof. induction a as [|x a IH]; cbn; [reflexivity|]. rewrite IH. lia. Qed.

Definition is_digit (c : ascii) : bool :=
  match c with
  | "0"%char | "1"%char | "2"%char | "3"%char | "4"%char
  | "5"%char | "6"%char | "7"%char | "8"%char | "9"%char => true
  | _ => false
  end.
Lemma uint_no_char c d : is_digit c = false -> count_char c (NilEmpty.string_of_uint d) = 0%nat.
Proof.
  intros H. induction d; [reflexivity|..];
    cbn [count_char NilEmpty.string_of_uint]; rewrite IHd;
    (match goal with |- context [Ascii.eqb ?a c] => destruct (Ascii.eqb_spec a c) as [E|E] end;
     [rewrite <- E in H; cbn in H; discriminate|reflexivity]).
Qed.
Lemma dec_no_char c z : is_digit c = false -> c <> "-"%char -> count_char c (dec z) = 0%nat.
Proof.
  intros H Hm. unfold dec, NilZero.string_of_int, NilZero.string_of_uint.
  assert (H0 : Ascii.eqb "0" c = false).
  { destruct (Ascii.eqb_spec "0" c); [subst c; cbn in H; discriminate|reflexivity]. }
  destruct (Z.to_int z) as [d|d].
  - destruct d; try (apply uint_no_char, H). cbn [count_char]. rewrite H0. reflexivity.
  - assert (Hmb : Ascii.eqb "-" c = false) by (destruct (Ascii.eqb_spec "-" c); [congruence|reflexivity]).
    cbn [count_char]. rewrite Hmb. cbn [Nat.add].
    destruct d; try (apply uint_no_char, H). cbn [count_char]. rewrite H0. reflexivity.
Qed.

Lemma to_int_not_nil z : Z.to_int z <> Pos Nil /\ Z.to_int z <> Neg Nil.
Proof.
  split; intros E; pose proof (DecimalZ.of_to z) as H; rewrite E in H; cbn in H; subst z; cbn in E; discriminate.
Qed.
Lemma dec_inj a b : dec a = dec b -> a = b.
Proof.
  unfold dec. intros H. destruct (to_int_not_nil a) as [A1 A2], (to_int_not_nil b) as [B1 B2].
  pose proof (NilZero.isi (Z.to_int a) A1 A2) as E1. pose proof (NilZero.isi (Z.to_int b) B1 B2) as E2.
  rewrite H in E1. rewrite E1 in E2. injection E2 as E2.
  rewrite <- (DecimalZ.of_to a), <- (DecimalZ.of_to b), E2. reflexivity.
Qed.

(* splitting at a separator that does not occur before it *)
Lemma split_unique c a b r s :
  count_char c a = 0%nat -> count_char c b = 0%nat ->
  a ++ String c r = b ++ String c s -> a = b /\ r = s.
Proof.
  revert b. induction a as [|x a IH]; intros [|y b] Ha Hb H; cbn in *.
  - injection H as H. auto.
  - injection H as -> H. rewrite Ascii.eqb_refl in Hb. discriminate.
  - injection H as -> H. rewrite Ascii.eqb_refl in Ha. discriminate.
  - injection H as -> H. destruct (IH b) as [-> ->]; try assumption; try lia; auto.
Qed.
