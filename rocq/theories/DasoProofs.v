From Coq Require Import QArith Qminmax Lqa Lia ZifyBool ZifyNat.
From Verif Require Import Prelude QFacts ListFacts SampleServiceProofs DeepBatchModel DeepBatchSpec DeepBatchProofs DeepLossModel DeepLossSpec DeepLossProofs DeepThreshModel DeepThreshSpec DeepThreshProofs DeepEmaModel DeepEmaSpec DeepEmaProofs CoMatchModel CoMatchSpec CoMatchProofs DasoModel DasoSpec.
Local Open Scope Z_scope.
Local Open Scope Q_scope.
Local Open Scope list_scope.

(* ------------------------------------------------------------------ the queues *)
Lemma skipn_tail {A} i (h : list A) j : skipn i (skipn j h) = skipn (i + j) h.
Proof. revert j. induction h as [|x h IH]; intros j; [now rewrite !skipn_nil|]. destruct j as [|j]; [rewrite Nat.add_0_r; reflexivity|]. rewrite Nat.add_succ_r. cbn [skipn]. apply IH. Qed.
Lemma recent_app {A} n (h r : list A) : recent n (recent n h ++ r) = recent n (h ++ r).
Proof.
  unfold recent. rewrite !app_length, skipn_length, !skipn_app, skipn_length, skipn_tail. f_equal.
  - destruct (Nat.le_gt_cases (length h) n) as [K|K]; [f_equal; lia|].
    destruct (Nat.le_gt_cases n (length r)) as [M|M]; [rewrite !skipn_all2 by lia; reflexivity|f_equal; lia].
  - f_equal. lia.
Qed.
Lemma recent_twice {A} n (h : list A) : recent n (recent n h) = recent n h.
Proof. pose proof (recent_app n h []) as H. now rewrite !app_nil_r in H. Qed.
Lemma of_class_rows c y f : length f = length y -> of_class (Z.of_nat c) y f = class_rows c y f.
Proof.
  unfold of_class, class_rows. revert f. induction y as [|a y IH]; intros [|r f] L; try discriminate L; [reflexivity|].
  cbn [combine filter fst length seq flat_map nth]. rewrite <- seq_shift, flat_map_concat_map, map_map, <- flat_map_concat_map. cbn [nth].
  destruct (a =? Z.of_nat c)%Z; cbn [map snd app]; rewrite (IH f) by (cbn in L; lia); reflexivity.
Qed.
Lemma push_class_spec cfg c y f h : (0 < ds_queue cfg)%Z -> length f = length y ->
  push_class cfg (Z.of_nat c) y f (recent (Z.to_nat (ds_queue cfg)) h) = recent (Z.to_nat (ds_queue cfg)) (h ++ class_rows c y f).
Proof.
  intros QS L. unfold push_class. rewrite of_class_rows by exact L. set (n := Z.to_nat (ds_queue cfg)).
  destruct (class_rows c y f) as [|r rows] eqn:E; [now rewrite app_nil_r|]. cbv zeta. rewrite <- recent_app.
  set (q := recent n h ++ r :: rows). unfold recent, lenZ. clearbody q. destruct (Z.ltb_spec (ds_queue cfg) (Z.of_nat (length q))); [reflexivity|].
  replace (length q - n)%nat with 0%nat by lia. reflexivity.
Qed.
Lemma push_all_spec cfg k y f (h : nat -> list (list Q)) : (0 < ds_queue cfg)%Z -> length f = length y ->
  push_all cfg y f (map (fun c => recent (Z.to_nat (ds_queue cfg)) (h c)) (seq 0 k)) = map (fun c => recent (Z.to_nat (ds_queue cfg)) (h c ++ class_rows c y f)) (seq 0 k).
Proof.
  intros QS L. unfold push_all. rewrite map_length, seq_length.
  assert (G : forall (g : nat -> list (list Q)) l, combine l (map g l) = map (fun c => (c, g c)) l) by (intros g; induction l as [|x l IH]; [reflexivity|cbn; now rewrite IH]).
  rewrite G, map_map. apply map_ext. intros c. cbn [fst snd]. now apply push_class_spec.
Qed.
Lemma prototype_centre d q : prototype d q = centre d q.
Proof.
  destruct q as [|r q]; [|reflexivity]. unfold prototype, centre. generalize 0%nat. induction d as [|d IH]; intros j; [reflexivity|]. cbn [repeat seq map]. rewrite <- IH. reflexivity.
Qed.
Lemma unit_scaled norm r : unit_row norm r = scaled norm r.
Proof. reflexivity. Qed.

(* ------------------------------------------------------------------ counting *)
Lemma count_cons c a l : countZ c (a :: l) = ((if (a =? c)%Z then 1 else 0) + countZ c l)%Z.
Proof. unfold countZ. cbn [count_occ]. destruct (Z.eq_dec a c) as [->|N]; [rewrite Z.eqb_refl; lia|]. destruct (Z.eqb_spec a c); [contradiction|lia]. Qed.
Lemma count_sum k l : (forall c, In c l -> (0 <= c < Z.of_nat k)%Z) -> fold_right Z.add 0%Z (map (fun c => countZ (Z.of_nat c) l) (seq 0 k)) = lenZ l.
Proof.
  induction l as [|a l IH]; intros H.
  - cbn. generalize (seq 0 k). induction l as [|x l IH]; [reflexivity|]. cbn. now rewrite IH.
  - unfold lenZ in *. cbn [length]. rewrite Nat2Z.inj_succ, <- IH by (intros c I; apply H; now right). specialize (H a (or_introl eq_refl)).
    assert (G : forall m s, fold_right Z.add 0%Z (map (fun c => countZ (Z.of_nat c) (a :: l)) (seq s m)) =
                ((if (Z.of_nat s <=? a) && (a <? Z.of_nat (s + m)) then 1 else 0) + fold_right Z.add 0%Z (map (fun c => countZ (Z.of_nat c) l) (seq s m)))%Z).
    { induction m as [|m IHm]; intros s; cbn [seq map fold_right]; [destruct (Z.leb_spec (Z.of_nat s) a), (Z.ltb_spec a (Z.of_nat (s + 0))); cbn [andb]; lia|].
      rewrite (IHm (S s)), count_cons. destruct (Z.eqb_spec a (Z.of_nat s)), (Z.leb_spec (Z.of_nat (S s)) a), (Z.ltb_spec a (Z.of_nat (S s + m))), (Z.leb_spec (Z.of_nat s) a), (Z.ltb_spec a (Z.of_nat (s + S m))); cbn [andb]; lia. }
    rewrite G. destruct (Z.leb_spec (Z.of_nat 0) a), (Z.ltb_spec a (Z.of_nat (0 + k))); cbn [andb]; lia.
Qed.
Lemma bincount_map k l : bincount k l = map (fun c => countZ (Z.of_nat c) l) (seq 0 k).
Proof. reflexivity. Qed.
Lemma count_app c a b : countZ c (a ++ b) = (countZ c a + countZ c b)%Z.
Proof. induction a as [|x a IH]; [reflexivity|]. cbn [app]. rewrite !count_cons, IH. lia. Qed.

(* ------------------------------------------------------------------ frequencies *)
Lemma chosen_ext argmax P P' from n : (forall u, (from <= u < from + n)%nat -> P u = P' u) -> chosen_classes argmax P from n = chosen_classes argmax P' from n.
Proof. intros H. unfold chosen_classes. f_equal. apply map_ext_in. intros u I. apply in_seq in I. now rewrite H. Qed.
Lemma frequency_ext argmax cfg k P P' t c : (0 < ds_period cfg)%Z -> (forall u, (u < t)%nat -> P u = P' u) -> frequency argmax cfg k P t c = frequency argmax cfg k P' t c.
Proof.
  intros QS H. unfold frequency. destruct (t / Z.to_nat (ds_period cfg))%nat as [|w] eqn:E; [reflexivity|]. f_equal. apply chosen_ext. intros u U. apply H.
  pose proof (Nat.div_mod t (Z.to_nat (ds_period cfg)) ltac:(lia)). nia.
Qed.
Lemma zipw_map {A B C I} (f : A -> B -> C) (g : I -> A) (h : I -> B) l : zipw f (map g l) (map h l) = map (fun i => f (g i) (h i)) l.
Proof. apply zipw_maps. Qed.

Section Count.
Variable argmax : list Q -> Z.
Variable cfg : daso_config.
Variable k : nat.
Hypothesis QS : (0 < ds_period cfg)%Z.
Let per := Z.to_nat (ds_period cfg).
Definition pending (P : nat -> list (list Q)) (t : nat) : list Z := chosen_classes argmax P (t / per * per) (t mod per).
Lemma count_labels_spec P t : P t <> [] -> (forall u p, (u <= t)%nat -> In p (P u) -> (0 <= argmax p < Z.of_nat k)%Z) ->
  count_labels cfg (Z.of_nat t) k (map argmax (P t)) (map (frequency argmax cfg k P t) (seq 0 k)) (map (fun c => countZ (Z.of_nat c) (pending P t)) (seq 0 k)) =
  (map (frequency argmax cfg k P (S t)) (seq 0 k), map (fun c => countZ (Z.of_nat c) (pending P (S t))) (seq 0 k)).
Proof using QS.
  intros NE R. unfold count_labels. cbv zeta. assert (HP : (0 < per)%nat) by (unfold per; lia).
  pose proof (Nat.div_mod t per ltac:(lia)) as DM. pose proof (Nat.mod_upper_bound t per ltac:(lia)) as MU.
  assert (EA : zipw Z.add (map (fun c => countZ (Z.of_nat c) (pending P t)) (seq 0 k)) (bincount k (map argmax (P t))) =
               map (fun c => countZ (Z.of_nat c) (chosen_classes argmax P (t / per * per) (S (t mod per)))) (seq 0 k)).
  { rewrite bincount_map, zipw_map. apply map_ext. intros c. unfold pending, chosen_classes. rewrite seq_S, map_app, concat_app, count_app. cbn [map concat]. rewrite app_nil_r.
    replace (t / per * per + t mod per)%nat with t by lia. reflexivity. }
  rewrite EA. assert (EM : ((Z.of_nat t + 1) mod ds_period cfg = Z.of_nat (S t mod per))%Z) by (rewrite Nat2Z.inj_mod; unfold per; rewrite Z2Nat.id by lia; f_equal; lia).
  rewrite EM. destruct (Nat.eq_dec (S (t mod per)) per) as [F|F].
  - assert (EQ : (S t = (S (t / per)) * per + 0)%nat) by lia.
    assert (E1 : (S t / per = S (t / per))%nat) by (symmetry; apply (Nat.div_unique _ _ _ 0); lia). assert (E2 : (S t mod per = 0)%nat) by (symmetry; apply (Nat.mod_unique _ _ (S (t / per))); lia).
    rewrite E2. change ((Z.of_nat 0 =? 0)%Z) with true. cbv iota. rewrite F.
    set (cs := chosen_classes argmax P (t / per * per) per).
    assert (IN : forall c, In c cs -> (0 <= c < Z.of_nat k)%Z).
    { intros c I. unfold cs, chosen_classes in I. apply in_concat in I. destruct I as (l & I & J). apply in_map_iff in I. destruct I as (u & <- & I). apply in_seq in I. apply in_map_iff in J. destruct J as (p & <- & J). apply (R u); [lia|exact J]. }
    rewrite (count_sum k cs IN). assert (PS : (0 < lenZ cs)%Z).
    { assert (I : exists c, In c cs).
      { destruct (P t) as [|p r] eqn:EP; [contradiction|]. exists (argmax p). unfold cs, chosen_classes. apply in_concat. exists (map argmax (P t)). split; [apply in_map_iff; exists t; split; [reflexivity|apply in_seq; lia]|]. rewrite EP. now left. }
      destruct I as [c I]. unfold lenZ. destruct cs; [destruct I|cbn; lia]. }
    destruct (Z.ltb_spec 0 (lenZ cs)); [|lia]. f_equal.
    + rewrite map_map. apply map_ext. intros c. unfold frequency. fold per. rewrite E1. reflexivity.
    + rewrite map_map. apply map_ext. intros c. unfold pending. rewrite E2. reflexivity.
  - assert (E1 : (S t / per = t / per)%nat) by (symmetry; apply (Nat.div_unique _ _ _ (S (t mod per))); lia).
    assert (E2 : (S t mod per = S (t mod per))%nat) by (symmetry; apply (Nat.mod_unique _ _ (t / per)); lia). rewrite E2.
    destruct (Z.eqb_spec (Z.of_nat (S (t mod per))) 0); [lia|]. f_equal.
    + apply map_ext. intros c. unfold frequency. fold per. now rewrite E1.
    + unfold pending. now rewrite E1, E2.
Qed.
End Count.

(* ------------------------------------------------------------------ targets *)
Lemma mixing_spec pow k freq c : (c < k)%nat -> trust pow k freq c (nth c (mixing pow (map freq (seq 0 k))) 0).
Proof.
  intros C. unfold mixing, trust. cbv zeta. set (f := fun j => pow (Qmax (freq j) (1 # 1000000000000))).
  set (v := map (fun x => pow (Qmax x tiny)) (map freq (seq 0 k))). assert (V : v = map f (seq 0 k)) by (unfold v; rewrite map_map; reflexivity).
  assert (NE : v <> []) by (rewrite V; destruct k; [lia|discriminate]).
  exists (row_max v). split; [split|].
  - destruct (row_max_in v NE) as (x & I & E). rewrite V in I. apply in_map_iff in I. destruct I as (j & <- & I). apply in_seq in I. exists j. split; [lia|exact E].
  - intros j J. apply row_max_ge. rewrite V. apply in_map_iff. exists j. split; [reflexivity|]. apply in_seq. lia.
  - rewrite (nth_map (fun x => x / Qmax (row_max v) tiny) v c 0) by (rewrite V, map_length, seq_length; exact C).
    rewrite V at 1. rewrite (nth_map f (seq 0 k) c 0%nat) by (rewrite seq_length; exact C). rewrite seq_nth by exact C. reflexivity.
Qed.
Lemma interp_spec k a p q : length p = k -> length q = k -> blended k a p q (interp a p q).
Proof.
  intros LP LQ. unfold interp, blended. split; [rewrite zipw_length; lia|]. intros c C. rewrite (zipw_seq _ p q 0 0) by lia. rewrite LP.
  rewrite (nth_map _ (seq 0 k) c 0%nat) by (rewrite seq_length; exact C). rewrite seq_nth by exact C. reflexivity.
Qed.
