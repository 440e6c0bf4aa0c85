(* Proofs about the supervised baseline. *)
From Coq Require Import String QArith Lqa Lia ZifyBool ZifyNat.
From Verif Require Import Prelude QFacts ListFacts AdaptModel AdaptSpec AdaptProofs AdaptTorchProofs AdaptProps EnsembleModel SblModel SblSpec.
Local Open Scope string_scope.
Local Open Scope Z_scope.
Local Open Scope list_scope.
Local Notation length := List.length.

Lemma check_labels_ok s dt : check_labels s dt = Ok tt <-> exists n, s = [n] /\ (0 < n)%nat /\ whole dt.
Proof.
  unfold check_labels, whole. split.
  - destruct s as [|n [|m s]]; cbn [length Nat.eqb negb nth]; try discriminate. destruct (Nat.eqb n 0) eqn:E; [discriminate|]. intros H. exists n. split; [reflexivity|]. split; [lia|]. destruct dt; [now left|now right|discriminate].
  - intros (n & -> & HN & HW). cbn [length Nat.eqb negb nth]. destruct (Nat.eqb_spec n 0); [lia|]. destruct HW as [->| ->]; reflexivity.
Qed.
Lemma labels_ok y : ensure_1d_labels y = Ok tt <-> exists n, (0 < n)%nat /\ array_labels y n.
Proof.
  unfold array_labels. split.
  - destruct y as [|i s dt| | |]; cbn [ensure_1d_labels]; try discriminate. rewrite check_labels_ok. intros (n & -> & HN & HW). exists n. split; [exact HN|]. now exists i, dt.
  - intros (n & HN & i & dt & -> & HW). cbn [ensure_1d_labels]. apply check_labels_ok. now exists n.
Qed.
Lemma labels_torch_ok y : ensure_1d_labels_torch y = Ok tt <-> exists n, (0 < n)%nat /\ tensor_labels y n.
Proof.
  unfold tensor_labels. split.
  - destruct y as [| |i s dt dv| |]; cbn [ensure_1d_labels_torch]; try discriminate. rewrite check_labels_ok. intros (n & -> & HN & HW). exists n. split; [exact HN|]. now exists i, dt, dv.
  - intros (n & HN & i & dt & dv & -> & HW). cbn [ensure_1d_labels_torch]. apply check_labels_ok. now exists n.
Qed.
Lemma detect_ok X b : detect_backend X = Ok b <-> takes b X.
Proof.
  unfold takes, array. split.
  - destruct X as [|i s dt|i s dt dv|items|]; cbn [detect_backend]; try discriminate.
    + intros [= <-]. left. split; [reflexivity|]. now exists s, i, dt.
    + intros [= <-]. right. split; [reflexivity|]. left. exists s, dv. now exists i, dt.
    + destruct (existsb _ items) eqn:E; [|discriminate]. intros [= <-]. right. split; [reflexivity|]. right. apply existsb_exists in E as ([k w] & HI & HT). cbn [snd] in HT. destruct w as [| |j s dt dv| |]; try discriminate. exists items, k, (Ten j s dt dv), s, dv. split; [reflexivity|]. split; [exact HI|]. now exists j, dt.
  - intros [(-> & s & i & dt & ->)|(-> & [(s & dv & i & dt & ->)|(items & k & w & s & dv & -> & HI & i & dt & ->)])]; cbn [detect_backend]; try reflexivity.
    destruct (existsb _ items) eqn:E; [reflexivity|]. exfalso. rewrite <- Bool.not_true_iff_false in E. apply E. apply existsb_exists. exists (k, Ten i s dt dv). now split.
Qed.
Lemma asked_ok asked b : ensure_classifier_backend asked b = Ok tt <-> (b = "torch" /\ asked = "torch") \/ (b = "numpy" /\ asked <> "torch").
Proof.
  unfold ensure_classifier_backend. destruct (String.eqb_spec b "torch") as [->|NT].
  - destruct (String.eqb_spec asked "torch") as [->|NA]; split; try discriminate; try (intros _; now left); intros [(_ & H)|([=] & _)]; [reflexivity|contradiction].
  - destruct (String.eqb_spec b "numpy") as [->|NN].
    + destruct (String.eqb_spec asked "torch") as [->|NA]; split; try discriminate; try (intros _; now right); intros [([=] & _)|(_ & H)]; [now contradiction H|reflexivity].
    + split; [discriminate|]. intros [(H & _)|(H & _)]; contradiction.
Qed.
Lemma cpu_ok dev : ensure_cpu_device dev = Ok tt <-> dev = "cpu" \/ dev = "auto".
Proof.
  unfold ensure_cpu_device. destruct (String.eqb_spec dev "cpu") as [->|N1]; cbn [orb]; [split; [now left|reflexivity]|]. destruct (String.eqb_spec dev "auto") as [->|N2]; [split; [now right|reflexivity]|]. split; [discriminate|intros [H|H]; contradiction].
Qed.

Section Baseline.
Variables P C : Type.
Variable available : string -> bool.
Variable np_device : option device.
Variable as_long : nat -> nat.
Variable as_tensor : val -> device -> result val.
Variable create : spec P -> Z -> result C.
Variable train : C -> val -> val -> result C.
Notation fitted := (fitted P C available np_device as_long as_tensor create train).
Notation fits := (fits available np_device as_long as_tensor create train).

Lemma fitted_iff sp d0 dev seed c b : fitted sp d0 dev seed = Ok (c, b) <-> fits sp d0 dev seed c b.
Proof.
  unfold SblModel.fitted, SblSpec.fits, trained_on. destruct d0 as [d|]; [|split; [discriminate|intros (d & [=] & _)]]. split.
  - intros H. exists d. split; [reflexivity|]. apply bind_ok in H as (bk & HB & H). apply bind_ok in H as ([] & HA & H). apply asked_ok in HA. apply detect_ok in HB. destruct HA as [(-> & HA)|(-> & HA)]; cbn [String.eqb Ascii.eqb Bool.eqb] in H.
    + apply bind_ok in H as (ds & HD & H). apply torch_split in HD as HD'. destruct HD' as (HR & m & HM & ->). cbn [d_xl d_yl d_xu] in H. apply bind_ok in H as (n & HN & H). destruct (Nat.eqb_spec n 0) as [|HN0]; [discriminate|]. apply bind_ok in H as ([] & HL & H). apply bind_ok in H as (k & HU & H). apply bind_ok in H as (c0 & HC & H). apply bind_ok in H as (c1 & HT & H). injection H as -> <-.
      split; [exists c0; now split|]. right. split; [reflexivity|]. split; [exact HR|]. split; [eexists; exact HD|]. split; [exact HA|]. split; [|now apply labels_torch_ok].
      destruct HR as (sl & sy & n' & f & dy & _ & _ & _ & _ & _ & HX & _). destruct (HX (d_xu d) (or_introl eq_refl)) as [E|(HTL & HO)]; [now left|right]. destruct (d_xu d) as [|i s dt|i s dt dv|items|i s] eqn:E; try solve [destruct HTL as [(? & ? & ? & ? & [=])|(? & ? & ? & ? & ? & [=] & _)]].
      * exists s. constructor.
      * apply size_of_ok in HU as (s & HF & _); [now exists s|exact HTL].
    + apply bind_ok in H as ([] & HC & H). apply cpu_ok in HC. apply bind_ok in H as (ds & HD & H). apply C148_numpy in HD as ([= <-] & HR). apply bind_ok in H as (s & HS & H). destruct (Nat.eqb (nth 0 s 0%nat) 0); [discriminate|]. apply bind_ok in H as ([] & HL & H). apply bind_ok in H as (c0 & HK & H). apply bind_ok in H as (c1 & HT & H). injection H as -> <-.
      split; [exists c0; now split|]. left. split; [reflexivity|]. split; [exact HR|]. split; [exact HA|]. split; [exact HC|]. now apply labels_ok.
  - intros (d1 & [= <-] & (c0 & HC & HT) & [(-> & HR & HA & HC' & n & HN & HL)|(-> & HR & (d' & HD) & HA & HU & n & HN & HL)]).
    + assert (HX := HR). destruct HX as (sl & sy & n' & f & HX & HS & HY & HLa & _). destruct HX as (i & dt & HX). destruct HY as (j & dt' & HY). rewrite HX at 1. cbn [detect_backend bind]. unfold ensure_classifier_backend. cbn [String.eqb Ascii.eqb Bool.eqb]. destruct (String.eqb_spec (sp_backend sp) "torch"); [contradiction|]. cbn [bind].
      rewrite (proj2 (cpu_ok dev) HC'). cbn [bind]. rewrite (proj2 (C148_numpy (Some d) d) (conj eq_refl HR)). cbn [bind]. rewrite HX at 1. cbn [np_shape bind]. destruct HS as (r & ->). cbn [nth].
      assert (n' = n). { destruct HL as (i' & dt2 & E & _). rewrite E in HY. injection HY as _ <- _. destruct HLa as [[= ->]|(c' & [=])]. reflexivity. } subst n'. destruct (Nat.eqb_spec n 0); [lia|]. rewrite (proj2 (labels_ok (d_yl d))) by (now exists n). cbn [bind]. rewrite HC. cbn [bind]. rewrite HT. reflexivity.
    + apply torch_split in HD as HD'. destruct HD' as (_ & m & HM & ->). assert (HX := HR). destruct HX as (sl & sy & n' & f & dy & HTL & HF & HS & HY & HLa & HXs & _).
      assert (HB : detect_backend (d_xl d) = Ok "torch") by (apply detect_ok; right; now split). rewrite HB. cbn [bind]. unfold ensure_classifier_backend. cbn [String.eqb Ascii.eqb Bool.eqb]. rewrite HA. cbn [String.eqb Ascii.eqb Bool.eqb bind]. rewrite HD. cbn [bind d_xl d_yl d_xu].
      rewrite (proj2 (size_of_ok 0 (d_xl d) n' HTL)) by (exists sl; split; [exact HF|]; destruct HS as (r & ->); reflexivity). cbn [bind].
      assert (n' = n). { destruct HL as (i' & dt2 & dv2 & E & _). destruct HY as (i & dt & HY). rewrite E in HY. injection HY as _ <- _ _. destruct HLa as [[= ->]|(c' & [=])]. reflexivity. } subst n'. destruct (Nat.eqb_spec n 0); [lia|]. rewrite (proj2 (labels_torch_ok (d_yl d))) by (now exists n). cbn [bind].
      assert (HK : exists k, match d_xu d with Nothing => Ok 0%nat | v => size_of 0 v end = Ok k).
      { destruct (HXs (d_xu d) (or_introl eq_refl)) as [E|(HT2 & HO)]; [rewrite E; now exists 0%nat|]. destruct HU as [E|(s & HF2)]; [rewrite E; now exists 0%nat|]. assert (HV : exists m', nth_error s 0 = Some m').
        { destruct HO as [HO|(s' & m' & HF' & r & ->)]; [apply opaque_iff in HO; apply featured_clear in HF2; congruence|]. rewrite (featured_inj _ _ _ HF2 HF'). now exists m'. }
        destruct HV as (m' & HV). exists m'. pose proof (proj2 (size_of_ok 0 (d_xu d) m' HT2) (ex_intro _ s (conj HF2 HV))) as HZ. destruct (d_xu d); exact HZ || (destruct HT2 as [(? & ? & ? & ? & [=])|(? & ? & ? & ? & ? & [=] & _)]). }
      destruct HK as (k & ->). cbn [bind]. rewrite HC. cbn [bind]. rewrite HT. reflexivity.
Qed.
End Baseline.

(* one-hot rows *)
Lemma last_index_ok c cs i : last_index c cs = Some i <-> nth_error cs i = Some c /\ forall j, (i < j)%nat -> nth_error cs j <> Some c.
Proof.
  revert i. induction cs as [|a r IH]; intros i; cbn [last_index].
  - split; [discriminate|]. intros (H & _). destruct i; discriminate.
  - destruct (last_index c r) as [k|] eqn:E.
    + pose proof (proj1 (IH k) eq_refl) as (H1 & H2). split.
      * intros [= <-]. cbn [nth_error]. split; [exact H1|]. intros [|j] HJ; [lia|]. cbn [nth_error]. apply H2. lia.
      * intros (G1 & G2). destruct i as [|i]; [destruct (G2 (S k)); [lia|exact H1]|]. f_equal. f_equal. cbn [nth_error] in G1. destruct (Nat.lt_total k i) as [HL|[HL|HL]]; [destruct (H2 i HL G1)|exact HL|]. destruct (G2 (S k)); [lia|exact H1].
    + assert (HN : forall j, nth_error r j <> Some c).
      { intros j. assert (HG : forall q, last_index c q = None -> forall j, nth_error q j <> Some c).
        { clear. induction q as [|x q IH]; intros H j; [destruct j; discriminate|]. cbn [last_index] in H. destruct (last_index c q); [discriminate|]. destruct (Z.eqb_spec x c); [discriminate|]. destruct j as [|j]; cbn [nth_error]; [congruence|now apply IH]. }
        now apply HG. }
      destruct (Z.eqb_spec a c) as [->|NE].
      * split; [intros [= <-]; split; [reflexivity|]; intros [|j] HJ; [lia|]; apply HN|]. intros (G1 & _). destruct i as [|i]; [reflexivity|]. destruct (HN i G1).
      * split; [discriminate|]. intros (G1 & _). destruct i as [|i]; cbn [nth_error] in G1; [congruence|destruct (HN i G1)].
Qed.
Lemma last_index_in c cs : In c cs <-> exists i, last_index c cs = Some i.
Proof.
  split.
  - induction cs as [|a r IH]; [intros []|]. cbn [last_index]. intros [->|HI]; [destruct (last_index c r) as [k|]; [now exists (S k)|]; rewrite Z.eqb_refl; now exists 0%nat|]. destruct (IH HI) as (k & ->). now exists (S k).
  - intros (i & H). apply last_index_ok in H as (H & _). eapply nth_error_In, H.
Qed.
Lemma positions_ok cs pred l : class_positions cs pred = Ok l <-> Forall2 (fun c i => last_index c cs = Some i) pred l.
Proof.
  revert l. induction pred as [|c r IH]; intros l; cbn [class_positions].
  - split; [intros [= <-]; constructor|intros H; inversion H; reflexivity].
  - destruct (last_index c cs) as [i|] eqn:E.
    + split.
      * intros H. apply bind_ok in H as (l' & H1 & [= <-]). constructor; [exact E|now apply IH].
      * intros H. inversion H as [|? j ? l' HJ HR]; subst. rewrite E in HJ. injection HJ as <-. now rewrite (proj2 (IH l') HR).
    + split; [discriminate|]. intros H. inversion H as [|? j ? l' HJ HR]; subst. congruence.
Qed.
Lemma positions_err cs pred : (exists c, In c pred /\ ~ In c cs) <-> class_positions cs pred = Err TypeError.
Proof.
  induction pred as [|c r IH]; cbn [class_positions]; [split; [intros (c & [] & _)|discriminate]|]. destruct (last_index c cs) as [i|] eqn:E.
  - assert (HI : In c cs) by (apply last_index_in; now exists i). split.
    + intros (c' & [<-|HC] & HN); [contradiction|]. rewrite (proj1 IH) by (now exists c'). reflexivity.
    + destruct (class_positions cs r) as [l|e] eqn:EP; cbn [bind]; [discriminate|]. intros [= ->]. destruct (proj2 IH eq_refl) as (c' & HC & HN). exists c'. split; [now right|exact HN].
  - split; [reflexivity|]. intros _. exists c. split; [now left|]. rewrite last_index_in. intros (i & HI). congruence.
Qed.
Lemma eye_marks cs c i : last_index c cs = Some i -> marks cs c (eye_row (length cs) i).
Proof.
  intros H. apply last_index_ok in H as (H1 & H2). unfold marks, eye_row. split; [now rewrite map_length, seq_length|]. exists i. split; [exact H1|]. split; [exact H2|]. intros j HJ.
  set (f := fun j => if Nat.eqb j i then 1%Q else 0%Q). rewrite (nth_indep _ 0%Q (f 0%nat)) by (now rewrite map_length, seq_length). rewrite map_nth, seq_nth by exact HJ. unfold f. cbn [Nat.add]. destruct (Nat.eqb_spec j i), (Nat.eq_dec j i); congruence.
Qed.
Lemma distinct_in c l : In c (distinct l) <-> In c l.
Proof.
  induction l as [|a r IH]; cbn [distinct fold_right]; [reflexivity|]. fold (distinct r). rewrite <- IH || idtac. assert (HI : forall q, In c (insert a q) <-> a = c \/ In c q).
  { induction q as [|x q IHq]; cbn [insert In]; [tauto|]. destruct (a <? x); [cbn [In]; tauto|]. destruct (Z.eqb_spec a x) as [->|]; cbn [In]; [tauto|]. rewrite IHq. tauto. }
  rewrite HI. cbn [In]. rewrite IH. reflexivity.
Qed.
Lemma scaled_ok r : scaled r (normalise_row r).
Proof.
  unfold scaled, normalise_row. change (Qsum r) with (sum r). destruct (Qeq_bool (sum r) 0) eqn:E.
  - apply Qeq_bool_iff in E. split; [reflexivity|]. intros j _. split; [intros HN; contradiction|intros _; reflexivity].
  - apply Qeq_bool_neq in E. split; [apply map_length|]. intros j HJ. split; [|intros HZ; contradiction]. intros _. set (f := fun x => (x / sum r)%Q). rewrite (nth_indep _ 0%Q (f 0%Q)) by (now rewrite map_length). rewrite map_nth. unfold f. field. exact E.
Qed.
Lemma distinct_sorted l : Sorted.StronglySorted Z.lt (distinct l).
Proof.
  induction l as [|a r IH]; cbn [distinct fold_right]; [constructor|]. fold (distinct r). revert IH. generalize (distinct r) as q. clear r.
  assert (HI : forall q c, In c (insert a q) -> a = c \/ In c q).
  { intros q c. induction q as [|x q IHq]; cbn [insert In]; [tauto|]. destruct (a <? x); [cbn [In]; tauto|]. destruct (Z.eqb_spec a x) as [->|]; cbn [In]; [tauto|]. intros [->|H]; [tauto|]. destruct (IHq H); tauto. }
  induction q as [|x q IHq]; intros HS; cbn [insert]; [repeat constructor|]. inversion HS as [|? ? HS' HF]; subst. destruct (Z.ltb_spec a x).
  - constructor; [exact HS|]. constructor; [assumption|]. eapply Forall_impl; [|exact HF]. cbv beta. intros; lia.
  - destruct (Z.eqb_spec a x) as [->|]; [exact HS|]. constructor; [apply IHq, HS'|]. apply Forall_forall. intros c HC. apply HI in HC as [<-|HC]; [lia|]. rewrite Forall_forall in HF. now apply HF.
Qed.
Lemma scaled_sum r r' : scaled r r' -> ~ (sum r == 0)%Q -> (sum r' == 1)%Q.
Proof.
  intros (HL & HJ) HN. assert (HM : (sum r' * sum r == sum r)%Q).
  { assert (HG : forall k a b, length b = length a -> (forall j, (j < length a)%nat -> nth j b 0 * k == nth j a 0)%Q -> (sum b * k == sum a)%Q).
    { intros k a. induction a as [|x a IH]; intros [|y b] HE HK; try discriminate; cbn [sum fold_right]; [lra|]. fold (sum a) (sum b). specialize (IH b). cbn [length] in HE. rewrite <- IH; [|lia|intros j Hj; apply (HK (S j)); cbn [length]; lia]. specialize (HK 0%nat). cbn [nth length] in HK. rewrite <- HK by lia. ring. }
    apply HG; [exact HL|]. intros j Hj. now apply HJ. }
  apply (Qmult_inj_r _ _ (sum r)); [exact HN|]. rewrite HM. ring.
Qed.

Section Scores.
Variable C : Type.
Variable scores_of proba_of : C -> option (val -> result scored).
Variable predict_of : C -> option (val -> result (list nat * list Z)).
Variable classes_of : C -> option (list Z).
Notation predict_scores := (predict_scores C scores_of proba_of predict_of classes_of).
Notation gives := (gives scores_of proba_of predict_of classes_of).

Lemma as_scores_ok s s' : as_scores s = Ok s' <-> exists sh r, s' = SArr sh r /\ length sh = 2%nat /\ (s = SArr sh r \/ s = STen Cpu sh r).
Proof.
  unfold as_scores. split.
  - destruct s as [sh r|[|k i] sh r]; cbn [bind s_shape]; try discriminate; (destruct (Nat.eqb_spec (length sh) 2); [|discriminate]); intros [= <-]; exists sh, r; tauto.
  - intros (sh & r & -> & HL & [->| ->]); cbn [bind s_shape]; rewrite HL; reflexivity.
Qed.
Lemma place_ok X dv : (exists s dv', tensor X s dv') \/ (exists items x, X = Dict items /\ binds items "x" x) -> place X = Ok dv <-> on X dv.
Proof.
  intros HX. unfold place, on. split.
  - intros H. destruct X as [|i s dt|i s dt dv'|items|]; cbn [features] in H; try discriminate.
    + injection H as <-. left. exists s. now exists i, dt.
    + destruct (lookup "x" items) as [x|] eqn:E; [|discriminate]. apply lookup_some in E. destruct x as [|j s dt|j s dt dv'| |] eqn:EX; try discriminate. injection H as <-. right. exists items, x, s. subst x. split; [reflexivity|]. split; [exact E|]. now exists j, dt.
  - intros [(s & i & dt & ->)|(items & x & s & -> & HB & i & dt & ->)]; cbn [features]; [reflexivity|]. apply lookup_some in HB. now rewrite HB.
Qed.
Lemma scores_iff c X b s : takes b X -> predict_scores c X b = Ok s <->
  exists sh r at_, gives c b X sh r at_ /\ s = match at_ with Some dv => STen dv sh r | None => SArr sh r end.
Proof.
  intros HT. unfold SblModel.predict_scores, SblSpec.gives. destruct HT as [(-> & sx & i & dt & ->)|(-> & HT)]; cbn [String.eqb Ascii.eqb Bool.eqb].
  - unfold scores_numpy. split.
    + intros H. destruct (scores_of c) as [f|] eqn:ES; [|destruct (proba_of c) as [f|] eqn:EP].
      * apply bind_ok in H as (s0 & H1 & H2). apply as_scores_ok in H2 as (sh & r & -> & HL & HS). exists sh, r, None. split; [|reflexivity]. left. split; [reflexivity|]. split; [reflexivity|]. split; [exact HL|]. exists f. split; [now left|]. destruct HS as [->| ->]; tauto.
      * apply bind_ok in H as (s0 & H1 & H2). apply as_scores_ok in H2 as (sh & r & -> & HL & HS). exists sh, r, None. split; [|reflexivity]. left. split; [reflexivity|]. split; [reflexivity|]. split; [exact HL|]. exists f. split; [now right|]. destruct HS as [->| ->]; tauto.
      * destruct (predict_of c) as [f|] eqn:EF; [|discriminate]. apply bind_ok in H as ([psh labels] & H1 & H2). cbn [fst snd] in H2. apply bind_ok in H2 as (idx & H2 & H3). apply as_scores_ok in H3 as (sh & r & -> & HL & HS). destruct HS as [[= <- <-]|[=]].
        rewrite app_length in HL. cbn [length] in HL. destruct psh as [|n [|]]; cbn [length] in HL; try lia. cbn [app]. set (cs := match classes_of c with Some cs => cs | None => distinct labels end) in *. exists [n; length cs], (map (eye_row (length cs)) idx), None. split; [|reflexivity]. right. left.
        split; [reflexivity|]. split; [reflexivity|]. split; [now split|]. exists f, n, labels, cs. split; [reflexivity|]. split; [exact H1|]. split.
        { unfold class_list, cs. destruct (classes_of c); [reflexivity|]. split; [apply distinct_sorted|intros k; apply distinct_in]. }
        split; [reflexivity|]. apply positions_ok in H2. clearbody cs. clear -H2. induction H2 as [|k j l1 l2 HK _ IH]; cbn [map]; constructor; [now apply eye_marks|exact IH].
    + intros (sh & r & at_ & [HG|[HG|HG]] & ->).
      * destruct HG as (_ & -> & HL & f & HA & HS). assert (HK : bind (f (Arr i sx dt)) as_scores = Ok (SArr sh r)) by (destruct HS as [->| ->]; cbn [bind]; apply as_scores_ok; exists sh, r; tauto). destruct HA as [->|(-> & ->)]; exact HK.
      * destruct HG as (_ & -> & (ES & EP) & f & n & labels & cs & EF & H1 & HC & -> & HM). rewrite ES, EP, EF, H1. cbn [bind fst snd].
        assert (HE : match classes_of c with Some cs => cs | None => distinct labels end = cs).
        { unfold class_list in HC. destruct (classes_of c); [now symmetry|]. destruct HC as (HS & HI). apply ListFacts.ascending_ext; [apply distinct_sorted|exact HS|]. intros k. rewrite distinct_in, HI. reflexivity. }
        rewrite HE. assert (HP : exists idx, class_positions cs labels = Ok idx /\ map (eye_row (length cs)) idx = r).
        { clear -HM. induction HM as [|k rw labels r (HLn & j & HN & HJ & HV) _ (idx & H1 & H2)]; [now exists []|]. assert (HX : last_index k cs = Some j) by (now apply last_index_ok). exists (j :: idx). cbn [class_positions map]. rewrite HX, H1. split; [reflexivity|]. f_equal; [|exact H2].
          pose proof (eye_marks cs k j HX) as (HL2 & j2 & HN2 & HJ2 & HV2). assert (j2 = j). { destruct (Nat.lt_total j j2) as [L|[L|L]]; [destruct (HJ j2 L HN2)|now symmetry|destruct (HJ2 j L HN)]. } subst j2.
          apply (nth_ext _ _ 0%Q 0%Q); [congruence|]. intros q Hq. rewrite HL2 in Hq. now rewrite HV, HV2. }
        destruct HP as (idx & E1 & E2). rewrite E1. cbn [bind]. rewrite E2. apply as_scores_ok. exists [n; length cs], r. tauto.
      * destruct HG as ([=] & _).
  - unfold scores_torch. split.
    + intros H. apply bind_ok in H as ([] & H0 & H). assert (HX : (exists s dv', tensor X s dv') \/ (exists items x, X = Dict items /\ binds items "x" x)).
      { destruct X as [| |i sx dt dv|items|]; try discriminate; [left; exists sx, dv; now exists i, dt|]. destruct (lookup "x" items) as [x|] eqn:E; [|discriminate]. apply lookup_some in E. right. now exists items, x. }
      apply bind_ok in H as (s0 & H1 & H2). destruct s0 as [|dv sh r]; [discriminate|]. destruct (Nat.eqb_spec (length sh) 2) as [HL|]; cbn [negb] in H2; [|discriminate]. apply bind_ok in H2 as (dv' & H3 & H4). destruct (device_eqb dv dv') eqn:E; [|discriminate]. injection H4 as <-. apply device_eqb_spec in E as <-. apply place_ok in H3; [|exact HX].
      exists sh, r, (Some dv). split; [|reflexivity]. right. right. split; [reflexivity|]. split; [exact HL|]. assert (HA : exists f, asks scores_of proba_of c f /\ f X = Ok (STen dv sh r)).
      { unfold asks. destruct (scores_of c) as [f|]; [exists f; tauto|]. destruct (proba_of c) as [f|]; [exists f; tauto|discriminate]. }
      destruct HA as (f & HA & HF). exists f, dv. tauto.
    + intros (sh & r & at_ & [([=] & _)|[([=] & _)|HG]] & ->). destruct HG as (_ & HL & f & dv & HA & HF & HO & ->). assert (HX : (exists s dv', tensor X s dv') \/ (exists items x, X = Dict items /\ binds items "x" x)).
      { destruct HO as [(s & HO)|(items & x & s & H1 & H2 & _)]; [left; now exists s, dv|right; now exists items, x]. }
      assert (H0 : match X with Ten _ _ _ _ => Ok tt | Dict items => match lookup "x" items with Some _ => Ok tt | None => Err InductiveValidationError end | _ => Err InductiveValidationError end = Ok tt).
      { destruct HX as [(s & dv' & i & dt & ->)|(items & x & -> & HB)]; [reflexivity|]. apply lookup_some in HB. now rewrite HB. }
      rewrite H0. cbn [bind]. assert (H1 : match scores_of c, proba_of c with Some f, _ => f X | None, Some f => f X | None, None => Err InductiveValidationError end = Ok (STen dv sh r)) by (destruct HA as [->|(-> & ->)]; exact HF).
      rewrite H1. cbn [bind]. rewrite HL. cbn [Nat.eqb negb]. rewrite (proj2 (place_ok X dv HX) HO). cbn [bind]. now rewrite (proj2 (device_eqb_spec dv dv) eq_refl).
Qed.
End Scores.
