From Coq Require Import Arith QArith Permutation ZifyBool ZifyNat Lia Lqa.
From Verif Require Import Prelude ListFacts SupervisedModel SupervisedSpec SupervisedProofs TclfModel TclfSpec TclfProofs TbackProofs ScrModel ScrSpec.
Local Open Scope list_scope.
Local Notation length := List.length.

Lemma truncate_cut q : cut_to q (truncate q).
Proof.
  destruct q as [a d]. unfold cut_to, truncate, Qle, Qlt, Qplus, Qminus, Qopp, inject_Z. cbn [Qnum Qden]. unfold Qplus. cbn [Qnum Qden]. rewrite !Pos.mul_1_l, !Z.mul_1_r.
  pose proof (Z.quot_rem' a (Zpos d)) as H. destruct (Z_le_gt_dec 0 a) as [Ha|Ha].
  - pose proof (Z.rem_bound_pos a (Zpos d) Ha ltac:(lia)). left. lia.
  - pose proof (Z.rem_bound_pos (- a) (Zpos d) ltac:(lia) ltac:(lia)) as Hr'. rewrite Z.rem_opp_l in Hr' by lia. right. lia.
Qed.
Lemma prepare_ok k x rows n : prepare k x = Ok (rows, n) -> readable k x (length rows) n /\ forall i, (i < length rows)%nat -> exists r, nth_error rows i = Some r /\ row_of k x i r.
Proof.
  assert (HM : forall (f : nat -> row) m i, (i < m)%nat -> nth_error (map f (seq 0 m)) i = Some (f i)).
  { intros f m i Hi. rewrite nth_error_map, (nth_error_nth' _ 0%nat) by (rewrite seq_length; exact Hi). rewrite seq_nth by exact Hi. reflexivity. }
  destruct k as [v|b k]; cbn [prepare]; destruct (r_shape x) as [|m [|a [|c [|t [|z l]]]]] eqn:E; try discriminate; destruct (Nat.eqb_spec m 0) as [|Hm]; try discriminate; intros [= <- <-]; rewrite map_length, seq_length; (split; [|intros i Hi; eexists; split; [apply HM; exact Hi|]]).
  - apply (readable_ids _ _ _ _ E). lia.
  - apply (row_ids v x m a i _ E Hi). split; [apply map_length|]. rewrite map_length. intros j Hj. rewrite (nth_map_lt truncate _ j 0%Q 0%Z Hj). apply truncate_cut.
  - apply (readable_image _ _ _ _ _ _ E). lia.
  - apply (row_image _ _ _ _ _ _ _ E Hi).
  - apply (readable_channels _ _ _ _ _ _ _ E). lia.
  - apply (row_channels _ _ _ _ _ _ _ _ E Hi).
Qed.
Lemma prepare_can k x : (exists p, prepare k x = Ok p) <-> exists n f, readable k x n f.
Proof.
  split.
  - intros [[rows n] H]. destruct (prepare_ok _ _ _ _ H). eauto.
  - intros (n & f & H). destruct H as [v x n l E Hn|b k x n f t E Hn|b k x n c f t E Hn]; cbn [prepare]; rewrite E; destruct (Nat.eqb_spec n 0); try lia; eauto.
Qed.
Lemma pooled_ok k : forall s, (exists m, pooled k s = Ok m) <-> (2 ^ k <= s)%nat.
Proof.
  induction k as [|k IH]; intros s; cbn [pooled].
  - destruct (Nat.eqb_spec s 0); split; eauto; try (intros [m H]; discriminate); cbn; try lia.
  - rewrite Nat.pow_succ_r'. destruct (Nat.ltb_spec s 2).
    + split; [intros [m H']; discriminate|]. intros H'. assert (2 ^ k <> 0)%nat by (apply Nat.pow_nonzero; lia). lia.
    + rewrite IH. split; intros H'; [pose proof (Nat.div_mod s 2 ltac:(lia)); pose proof (Nat.mod_upper_bound s 2 ltac:(lia)); nia|]. apply Nat.div_le_lower_bound; lia.
Qed.
Definition matches (k : kind) (r : row) : Prop := match k, r with Lstm _, Tokens _ | Audio _ _, Picture _ _ _ _ => True | _, _ => False end.
Lemma row_matches k x i r : row_of k x i r -> matches k r.
Proof. intros H. destruct H; exact I. Qed.
Lemma forward_ok k r : forward k r = Ok tt <-> scorable k r.
Proof.
  split.
  - intros H. destruct k as [v|b k], r as [ids|c f t l]; cbn [forward] in H; try discriminate.
    + destruct (forallb _ ids) eqn:E; cbn [negb] in H; [|discriminate]. destruct ids as [|i ids]; [discriminate|]. constructor; [discriminate|]. intros j Hj. rewrite forallb_forall in E. specialize (E j Hj). lia.
    + destruct (Nat.eqb_spec c 1) as [->|]; cbn [negb] in H; [|discriminate]. destruct (pooled k f) as [m|] eqn:E1; [|discriminate]. cbn [bind] in H. destruct (pooled k t) as [m'|] eqn:E2; [|discriminate].
      constructor; apply pooled_ok; eauto.
  - intros H. destruct H as [v ids Hn Hi|b k f t l Hf Ht]; cbn [forward].
    + assert (E : forallb (fun i => (0 <=? i)%Z && (i <? Z.of_nat v)%Z) ids = true) by (apply forallb_forall; intros i Hin; specialize (Hi i Hin); lia). rewrite E. cbn [negb]. destruct ids; [congruence|reflexivity].
    + cbn [Nat.eqb negb]. destruct (proj2 (pooled_ok k f) Hf) as [m ->]. cbn [bind]. destruct (proj2 (pooled_ok k t) Ht) as [m' ->]. reflexivity.
Qed.
Lemma forward_all_ok k l : forward_all k l = Ok tt <-> forall r, In r l -> scorable k r.
Proof.
  induction l as [|r l IH]; cbn [forward_all]; [split; [intros _ r []|reflexivity]|]. destruct (forward k r) as [[]|e] eqn:E; cbn [bind].
  - rewrite IH. apply forward_ok in E. split; [intros H r' [<-|Hr]; auto|intros H r' Hr; apply H; right; exact Hr].
  - split; [discriminate|]. intros H. specialize (H r (or_introl eq_refl)). apply forward_ok in H. congruence.
Qed.
Lemma device_ok cuda jobs x y d : fit_device cuda jobs x y = Ok d <-> on_device cuda jobs x y d.
Proof.
  unfold fit_device, on_device. destruct (r_tensor x), (r_tensor y); cbn [andb].
  - destruct (Z.eqb_spec (r_dev x) (r_dev y)) as [E|E]; cbn [negb]; split; try discriminate.
    + intros [= <-]. repeat split; auto; discriminate. + intros (H1 & _). rewrite (H1 eq_refl). reflexivity. + intros (H1 & H2 & _). rewrite (H1 eq_refl) in H2. specialize (H2 eq_refl). contradiction.
  - split; [intros [= <-]; repeat split; auto; discriminate|intros (H1 & _); rewrite (H1 eq_refl); reflexivity].
  - split; [intros [= <-]; repeat split; auto; discriminate|intros (_ & H1 & _); rewrite (H1 eq_refl); reflexivity].
  - destruct cuda; cbn [andb].
    + destruct jobs as [z|]; [destruct (Z.eqb_spec z 0) as [->|Hz]|]; cbn [negb]; split; try (intros [= <-]; split; [discriminate|]; split; [discriminate|]; intros _ _).
      * right. auto. * intros (_ & _ & H). destruct (H eq_refl eq_refl) as [(_ & _ & H')|[-> _]]; [congruence|reflexivity].
      * left. repeat split. congruence. * intros (_ & _ & H). destruct (H eq_refl eq_refl) as [(-> & _)|[_ [H'|H']]]; [reflexivity|discriminate|congruence].
      * left. repeat split. discriminate. * intros (_ & _ & H). destruct (H eq_refl eq_refl) as [(-> & _)|[_ [H'|H']]]; [reflexivity|discriminate|discriminate].
    + split; [intros [= <-]; split; [discriminate|]; split; [discriminate|]; intros _ _; right; auto|]. intros (_ & _ & H). destruct (H eq_refl eq_refl) as [(_ & H' & _)|[-> _]]; [discriminate|reflexivity].
Qed.
Lemma prepare_y_ok y l : prepare_y y = Ok l <-> r_data y <> [] /\ l = map truncate (r_data y).
Proof. unfold prepare_y. destruct (r_data y) as [|q d]; split; try discriminate; [intros [H _]; congruence|intros [= <-]; split; [discriminate|reflexivity]|intros [_ ->]; reflexivity]. Qed.

(* ---- training *)
Section Training.
Context {W Op G R : Type}.
Variable order : nat -> option R * G -> list nat * (option R * G).
Variable step : list (row * nat) -> W * Op * G -> W * Op * G.
Variables (k : kind) (x : raw) (rows : list row) (nf : nat) (y classes : list Z) (codes : list nat).
Hypothesis Hp : prepare k x = Ok (rows, nf).
Hypothesis Hcodes : encode_labels y = (codes, classes).
Hypothesis Hn : length rows = length y.
Let data := combine rows codes.
Lemma sdata_length : length data = length y.
Proof. unfold data. rewrite combine_length, Hn. destruct (encode_labels_spec _ _ _ Hcodes) as (_ & Hl & _). lia. Qed.
Lemma combine_nth_error {A B} (l : list A) : forall (m : list B) i a b, nth_error l i = Some a -> nth_error m i = Some b -> nth_error (combine l m) i = Some (a, b).
Proof. induction l as [|u l IH]; intros [|v m] [|i] a b; cbn; try discriminate; [congruence|apply IH]. Qed.
Lemma sdata_entry i : (i < length y)%nat -> exists e, nth_error data i = Some e /\ entry_of k x y classes i e /\ nth_error rows i = Some (fst e).
Proof.
  intros Hi. destruct (encode_labels_spec _ _ _ Hcodes) as (_ & Hl & Hc). destruct (Hc i Hi) as [H1 H2]. destruct (proj2 (prepare_ok _ _ _ _ Hp) i ltac:(lia)) as (r & Hr & Ho).
  exists (r, nth i codes 0%nat). split; [|split; [split; [exact Ho|split; assumption]|exact Hr]]. apply combine_nth_error; [exact Hr|]. apply nth_error_nth'. lia.
Qed.
Lemma batch_entries b : (forall i, In i b -> (i < length y)%nat) -> Forall2 (entry_of k x y classes) b (batch_of data b) /\ forall r, In r (map fst (batch_of data b)) <-> exists i, In i b /\ nth_error rows i = Some r.
Proof.
  unfold batch_of. induction b as [|i b IH]; intros Hb; [split; [constructor|]; intros r; split; [intros []|intros (i & [] & _)]|]. cbn [flat_map]. destruct (sdata_entry i (Hb i (or_introl eq_refl))) as (e & -> & He & Hr).
  destruct (IH (fun j Hj => Hb j (or_intror Hj))) as [IH1 IH2]. cbn [app map]. split; [constructor; assumption|]. intros r. cbn [In]. rewrite IH2. split.
  - intros [<-|(j & Hj & Hr')]; eauto. 
  - intros (j & [<-|Hj] & Hr'); [left; congruence|right; eauto].
Qed.
Lemma steps_ok bs : (forall b i, In b bs -> In i b -> (i < length y)%nat) -> forall s, 
  (snd (steps W Op G step k data bs s) = Ok tt <-> forall i r, In i (concat bs) -> nth_error rows i = Some r -> scorable k r) /\
  (snd (steps W Op G step k data bs s) = Ok tt -> stepped step k x y classes bs s (fst (steps W Op G step k data bs s))).
Proof.
  induction bs as [|b bs IH]; intros Hb s; [split; [split; [intros _ i r []|reflexivity]|constructor]|]. cbn [steps].
  destruct (batch_entries b (fun i Hi => Hb b i (or_introl eq_refl) Hi)) as [H1 H2]. assert (IH' := IH (fun b' i Hb' => Hb b' i (or_intror Hb')) (step (batch_of data b) s)). destruct IH' as [IHa IHb].
  destruct (forward_all k (map fst (batch_of data b))) as [[]|e] eqn:E.
  - rewrite forward_all_ok in E. split.
    + rewrite IHa. cbn [concat]. split; intros H i r Hi Hr; [apply in_app_or in Hi; destruct Hi as [Hi|Hi]; [apply E, H2; eauto|eauto]|apply (H i r); [apply in_or_app; right; exact Hi|exact Hr]].
    + intros H. econstructor; [exact H1|]. apply IHb, H.
  - split; [|discriminate]. split; [discriminate|]. intros H. exfalso. assert (E' : forward_all k (map fst (batch_of data b)) = Ok tt); [|congruence]. apply forward_all_ok. intros r Hr. apply H2 in Hr. destruct Hr as (i & Hi & Hr). apply (H i r); [|exact Hr]. cbn [concat]. apply in_or_app. left. exact Hi.
Qed.
Hypothesis Horder : order_ok order.
Variable size : nat.
Hypothesis Hsize : (0 < size)%nat.
Lemma train_ok n : forall r s,
  (snd (train W Op G R order step k size data n r s) = Ok tt <-> (n <> 0%nat -> forall r, In r rows -> scorable k r)) /\
  (snd (train W Op G R order step k size data n r s) = Ok tt -> trained order step k size x y classes n r s (fst (train W Op G R order step k size data n r s))).
Proof.
  induction n as [|n IH]; intros r [[w o] g]; [split; [split; [intros _ H; congruence|reflexivity]|constructor]|]. cbn [train]. rewrite sdata_length.
  assert (HP := Horder (length y) (r, g)). destruct (order (length y) (r, g)) as [idx [r' g']] eqn:E. cbn [fst] in HP.
  assert (HL : length idx = length y) by (rewrite (Permutation_length HP); apply seq_length). destruct (batches_spec size Hsize (length y) idx ltac:(lia)) as (B1 & B2 & B3).
  assert (Hin : forall b i, In b (batches (length y) size idx) -> In i b -> (i < length y)%nat).
  { intros b i Hb Hi. assert (Hx : In i idx) by (rewrite <- B1; apply in_concat; eauto). apply (Permutation_in i HP) in Hx. apply in_seq in Hx. lia. }
  destruct (steps_ok (batches (length y) size idx) Hin (w, o, g')) as [S1 S2]. destruct (steps W Op G step k data (batches (length y) size idx) (w, o, g')) as [s rr]. cbn [fst snd] in S1, S2.
  assert (SA : rr = Ok tt <-> forall r, In r rows -> scorable k r).
  { rewrite S1. split.
    - intros H r0 Hr0. destruct (In_nth_error _ _ Hr0) as [i Hi]. apply (H i r0); [|exact Hi]. rewrite B1. apply (Permutation_in i (Permutation_sym HP)). apply in_seq. split; [lia|]. cbn. rewrite <- Hn. apply nth_error_Some. congruence.
    - intros H i r0 _ Hr0. apply H. apply (nth_error_In _ _ Hr0). }
  destruct rr as [[]|e].
  - destruct (IH r' s) as [IHa IHb]. split.
    + rewrite IHa. split; [intros _ _; apply SA; reflexivity|intros H _; apply H; discriminate].
    + intros H. econstructor; [|rewrite E, B1; reflexivity|apply S2; reflexivity|apply IHb, H]. split; [rewrite B1; exact HP|]. split; assumption.
  - cbn [snd]. split; [|discriminate]. split; [discriminate|]. intros H. discriminate (proj2 SA (H ltac:(discriminate))).
Qed.
End Training.
