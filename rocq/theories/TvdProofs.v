From Coq Require Import String Lia.
From Verif Require Import Prelude PyValue RegModel OmlModel ProvModel TvdModel TvdSpec.
Local Open Scope string_scope.
Local Open Scope list_scope.
Local Notation length := List.length.
Section P.
Context {A : Type}.
Lemma two_built (mk : @maker A) a b r c : two mk a b = (r, c) <-> built mk a b r c.
Proof.
  unfold two. split.
  - destruct (mk a) as [d|e] eqn:E; [destruct (mk b) as [d'|e'] eqn:E'|]; intros [= <- <-]; econstructor; eauto.
  - intros H; destruct H as [e E|d e E E'|d d' E E']; rewrite E; [reflexivity| |]; rewrite E'; reflexivity.
Qed.
Lemma iterate_ok (item : nat -> result (@sample A)) : forall n k fuel, (n < fuel)%nat -> forall x y, length x = n -> length y = n ->
  (forall i, (i < n)%nat -> exists a z, nth_error x i = Some a /\ nth_error y i = Some z /\ item (k + i)%nat = Ok (Pair a z)) -> item (k + n)%nat = Err IndexError -> iterate item fuel k = Ok (x, y).
Proof.
  induction n as [|n IH]; intros k fuel Hf x y Hx Hy Hi He; (destruct fuel as [|fuel]; [lia|]); cbn [iterate].
  - rewrite Nat.add_0_r in He. rewrite He. destruct x; [|discriminate]. destruct y; [reflexivity|discriminate].
  - destruct x as [|a x]; [discriminate|]. destruct y as [|z y]; [discriminate|]. destruct (Hi 0%nat ltac:(lia)) as (a' & z' & [= <-] & [= <-] & E). rewrite Nat.add_0_r in E. rewrite E.
    rewrite (IH (S k) fuel ltac:(lia) x y); [reflexivity|cbn in Hx; lia|cbn in Hy; lia| |rewrite <- He; f_equal; lia].
    intros i H. destruct (Hi (S i) ltac:(lia)) as (a' & z' & H1 & H2 & H3). exists a', z'. split; [exact H1|]. split; [exact H2|]. rewrite <- H3. f_equal. lia.
Qed.
Lemma iterate_inv (item : nat -> result (@sample A)) : forall fuel k,
  match iterate item fuel k with
  | Ok (x, y) => length x = length y /\ (length x < fuel)%nat /\ (forall i, (i < length x)%nat -> exists a z, nth_error x i = Some a /\ nth_error y i = Some z /\ item (k + i)%nat = Ok (Pair a z)) /\ item (k + length x)%nat = Err IndexError
  | Err e => e = OutOfFuel \/ exists n, (forall i, (i < n)%nat -> exists a z, item (k + i)%nat = Ok (Pair a z)) /\ ((item (k + n)%nat = Err e /\ e <> IndexError) \/ (e = IndexError /\ exists j, item (k + n)%nat = Ok (Short j)))
  end.
Proof.
  induction fuel as [|fuel IH]; intros k; cbn [iterate]; [left; reflexivity|]. destruct (item k) as [[a z|j]|e] eqn:E.
  - specialize (IH (S k)). destruct (iterate item fuel (S k)) as [[x y]|e]; cbn [bind].
    + destruct IH as (H1 & H2 & H3 & H4). cbn [length]. split; [lia|]. split; [lia|]. split; [|rewrite <- H4; f_equal; lia].
      intros [|i] Hi; [exists a, z; rewrite Nat.add_0_r; auto|]. destruct (H3 i ltac:(lia)) as (a' & z' & P1 & P2 & P3). exists a', z'. cbn [nth_error]. split; [exact P1|]. split; [exact P2|]. rewrite <- P3. f_equal. lia.
    + destruct IH as [->|(n & H1 & H2)]; [left; reflexivity|]. right. exists (S n). replace (k + S n)%nat with (S k + n)%nat by lia. split; [|exact H2].
      intros [|i] Hi; [exists a, z; rewrite Nat.add_0_r; exact E|]. replace (k + S i)%nat with (S k + i)%nat by lia. apply H1. lia.
  - right. exists 0%nat. rewrite Nat.add_0_r. split; [intros; lia|]. right. eauto.
  - destruct e; try (right; exists 0%nat; rewrite Nat.add_0_r; split; [intros; lia|]; left; split; [exact E|discriminate]).
    cbn [length]. rewrite Nat.add_0_r. split; [reflexivity|]. split; [lia|]. split; [intros; lia|exact E].
Qed.
Lemma samples_fun (d : @dataset A) x y x' y' : samples d x y -> samples d x' y' -> x = x' /\ y = y'.
Proof.
  intros [x1 y1 H1 H2|n x1 y1 H1 H2 H3 H4 H5] [x2 y2 K1 K2|m x2 y2 K1 K2 K3 K4 K5].
  - split; congruence.
  - destruct K1; congruence.
  - destruct H1; congruence.
  - set (f := S (n + m)). assert (E1 := iterate_ok (d_item d) n 0 f ltac:(unfold f; lia) x1 y1 H2 H3 H4 H5). assert (E2 := iterate_ok (d_item d) m 0 f ltac:(unfold f; lia) x2 y2 K2 K3 K4 K5). rewrite E1 in E2. injection E2. auto.
Qed.
Lemma extract_ok (d : @dataset A) x y : samples d x y <-> exists fuel, extract_xy fuel d = Ok (x, y).
Proof.
  unfold extract_xy. split.
  - intros [x1 y1 H1 H2|n x1 y1 H1 H2 H3 H4 H5]; [exists 0%nat; rewrite H1, H2; reflexivity|]. exists (S n). assert (E := iterate_ok (d_item d) n 0 (S n) ltac:(lia) x1 y1 H2 H3 H4 H5). destruct H1 as [-> | ->]; [exact E|]. destruct (d_data d); exact E.
  - intros [fuel H].
    assert (K : d_data d = None \/ d_targets d = None -> iterate (d_item d) fuel 0 = Ok (x, y) -> samples d x y).
    { intros Hn E. assert (I := iterate_inv (d_item d) fuel 0). rewrite E in I. destruct I as (I1 & _ & I3 & I4). apply (samples_items d (length x)); auto. }
    destruct (d_data d) as [x'|] eqn:E1; [destruct (d_targets d) as [y'|] eqn:E2|]; [injection H as <- <-; apply samples_fields; assumption|apply K; auto|apply K; auto].
Qed.
(* enough fuel changes nothing *)
Lemma extract_more (d : @dataset A) x y : samples d x y -> exists n, forall fuel, (n <= fuel)%nat -> extract_xy fuel d = Ok (x, y).
Proof.
  unfold extract_xy. intros [x1 y1 H1 H2|n x1 y1 H1 H2 H3 H4 H5]; [exists 0%nat; intros fuel _; rewrite H1, H2; reflexivity|]. exists (S n). intros fuel Hf. assert (E := iterate_ok (d_item d) n 0 fuel ltac:(lia) x1 y1 H2 H3 H4 H5). destruct H1 as [-> | ->]; [exact E|]. destruct (d_data d); exact E.
Qed.
Lemma iterate_bad (item : nat -> result (@sample A)) e : forall n k fuel, (n < fuel)%nat -> (forall i, (i < n)%nat -> exists a z, item (k + i)%nat = Ok (Pair a z)) ->
  (item (k + n)%nat = Err e /\ e <> IndexError) \/ (e = IndexError /\ exists j, item (k + n)%nat = Ok (Short j)) -> iterate item fuel k = Err e.
Proof.
  induction n as [|n IH]; intros k fuel Hf Hi He; (destruct fuel as [|fuel]; [lia|]); cbn [iterate].
  - rewrite Nat.add_0_r in He. destruct He as [[-> He]|[-> [j ->]]]; [|reflexivity]. destruct e; congruence.
  - destruct (Hi 0%nat ltac:(lia)) as (a & z & E). rewrite Nat.add_0_r in E. rewrite E. replace (k + S n)%nat with (S k + n)%nat in He by lia. rewrite (IH (S k) fuel ltac:(lia)); [reflexivity| |exact He].
    intros i H. destruct (Hi (S i) ltac:(lia)) as (a' & z' & H3). exists a', z'. rewrite <- H3. f_equal. lia.
Qed.
Lemma extract_bad (d : @dataset A) n e : unreadable d n e -> forall fuel, (n < fuel)%nat -> extract_xy fuel d = Err e.
Proof.
  intros H fuel Hf. unfold extract_xy. assert (E : iterate (d_item d) fuel 0 = Err e /\ (d_data d = None \/ d_targets d = None)).
  { destruct H as [n e H1 H2 H3 H4|n j H1 H2 H3]; (split; [|exact H1]); apply (iterate_bad (d_item d) _ n 0 fuel Hf H2); [left; auto|right; eauto]. }
  destruct E as [E [-> | ->]]; [exact E|]. destruct (d_data d); exact E.
Qed.
End P.
