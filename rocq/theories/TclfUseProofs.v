(* Lemmas behind C145 and C146: inputs of texts and images, and each classifier's fit in terms of fit_core. *)
From Coq Require Import QArith Lqa Lia ZifyBool ZifyNat Permutation.
From Verif Require Import Prelude ListFacts SupervisedModel SupervisedSpec SupervisedProofs DeepLossSpec TclfModel TclfSpec TclfProofs.
Local Open Scope list_scope.
Local Notation length := List.length.

Lemma text_input_ok l x t : text_input l x = Ok t -> sequences l x t.
Proof.
  unfold text_input, sequences. destruct (t_shape x) as [|n [|a [|b [|? ?]]]] eqn:E; try discriminate.
  - intros [= <-]. split; [reflexivity|]. left. now exists n, a.
  - destruct l; [| |discriminate]; intros [= <-].
    + split; [reflexivity|]. right. right. exists n, a, b. repeat split; [apply transposed_filled|]. intros. now apply transposed_at.
    + split; [reflexivity|]. right. left. now exists n, a, b.
Qed.
Lemma text_input_returns l x : (exists t, text_input l x = Ok t) <-> length (t_shape x) = 2%nat \/ (length (t_shape x) = 3%nat /\ l <> OtherLayout).
Proof.
  unfold text_input. destruct (t_shape x) as [|n [|a [|b [|? ?]]]]; cbn [length]; try (split; [intros (t & H); discriminate H|lia]).
  - split; [lia|intros _; eexists; reflexivity].
  - destruct l; (split; [intros (t & H); solve [discriminate H|right; split; [reflexivity|discriminate]]|intros [H|[_ H]]; [lia|solve [congruence|eexists; reflexivity]]]).
Qed.
Lemma sequences_shape l x t : sequences l x t -> t_n t = t_n x /\ volume (t_shape t) = volume (t_shape x).
Proof.
  intros (_ & [(n & len & H1 & H2 & _)|[(n & ch & len & _ & _ & ->)|(n & len & ch & _ & H1 & H2 & _)]]); unfold t_n; rewrite ?H1, ?H2; cbn [hd volume fold_right]; lia.
Qed.
Lemma sequences_returns l x t : l <> OtherLayout -> sequences l x t -> exists t0, text_input l x = Ok t0 /\ t_shape t0 = t_shape t.
Proof.
  intros HL (_ & [(n & len & H1 & H2 & _)|[(n & ch & len & -> & H1 & ->)|(n & len & ch & -> & H1 & H2 & _)]]); unfold text_input; rewrite H1; eexists; (split; [reflexivity|]); [now rewrite H2|assumption|now rewrite H2].
Qed.
Lemma parse_given s p : parse_shape s = Ok (Some p) <-> shape_given s p.
Proof.
  destruct p as [[c h] w]. unfold shape_given. split.
  - unfold parse_shape. destruct s as [[|a [|b [|e [|? ?]]]]|]; try discriminate.
    + destruct (Z.leb_spec a 0); [discriminate|]. destruct (Z.leb_spec b 0); [discriminate|]. cbn [orb]. intros [= <- <- <-]. repeat split; [lia|lia|lia|]. right. rewrite !Z2Nat.id by lia. now split.
    + destruct (Z.leb_spec a 0); [discriminate|]. destruct (Z.leb_spec b 0); [discriminate|]. destruct (Z.leb_spec e 0); [discriminate|]. cbn [orb]. intros [= <- <- <-]. repeat split; [lia|lia|lia|]. left. now rewrite !Z2Nat.id by lia.
  - intros (Hc & Hh & Hw & [->|[-> ->]]); unfold parse_shape; [replace (Z.of_nat c <=? 0)%Z with false by lia|]; replace (Z.of_nat h <=? 0)%Z with false by lia; replace (Z.of_nat w <=? 0)%Z with false by lia; cbn [orb]; now rewrite !Nat2Z.id.
Qed.
Lemma image_input_ok known given x s t : image_input known given x = Ok (s, t) <-> images known given x t s.
Proof.
  destruct s as [[c h] w]. unfold image_input, images. split.
  - unfold t_n. destruct (t_shape x) as [|n [|a [|b [|e [|? ?]]]]] eqn:E; try discriminate.
    + assert (HK : forall s0, match known with Some s1 => Ok (Some s1) | None => parse_shape given end = Ok (Some s0) -> known = Some s0 \/ (known = None /\ shape_given given s0)).
      { destruct known; [intros s0 [= ->]; now left|]. intros s0 H. right. split; [reflexivity|]. now apply parse_given. }
      destruct (match known with Some s1 => Ok (Some s1) | None => parse_shape given end) as [[s0|]|]; try discriminate. cbn [bind]. destruct s0 as [[c0 h0] w0]. destruct (Nat.eqb_spec a (c0 * h0 * w0)) as [->|]; [|discriminate]. intros [= <- <- <- <-]. cbn [hd reshaped t_shape t_data t_dev].
      repeat split. right. right. split; [reflexivity|]. now apply HK.
    + intros [= <- <- <- <-]. cbn [hd reshaped t_shape t_data t_dev]. repeat split. right. left. now split.
    + intros [= <- <- <- <-]. cbn [hd]. rewrite E. repeat split. now left.
  - intros (H1 & H2 & H3 & H4). assert (HT : t = reshaped [t_n x; c; h; w] x) by (destruct t; cbn in *; subst; reflexivity). destruct H4 as [H4|[[-> H4]|[H4 HK]]]; rewrite H4.
    + do 2 f_equal. rewrite HT, <- H4. now destruct x.
    + now rewrite HT.
    + assert (HE : match known with Some s1 => Ok (Some s1) | None => parse_shape given end = Ok (Some (c, h, w))) by (destruct HK as [->|[-> HG]]; [reflexivity|now apply parse_given]). rewrite HE. cbn [bind]. rewrite Nat.eqb_refl. now rewrite HT.
Qed.
Lemma images_shape known given x t s : images known given x t s -> t_n t = t_n x /\ volume (t_shape t) = volume (t_shape x) /\ hd O (tl (t_shape t)) = fst (fst s).
Proof.
  destruct s as [[c h] w]. intros (_ & _ & H3 & H4). unfold t_n at 1. rewrite H3. cbn [hd tl fst]. split; [reflexivity|]. split; [|reflexivity].
  destruct H4 as [->|[[-> ->]|[-> _]]]; [reflexivity|cbn [volume fold_right]; lia|cbn [volume fold_right]; lia].
Qed.
Lemma samples_nth t i d : (i < t_n t)%nat -> nth i (samples t) d = (tl (t_shape t), slice t i).
Proof.
  intros H. unfold samples. set (f := fun i => (tl (t_shape t), slice t i)). rewrite (nth_indep _ _ (f O)) by now rewrite map_length, seq_length.
  rewrite map_nth, seq_nth by exact H. reflexivity.
Qed.
Lemma samples_length t : length (samples t) = t_n t.
Proof. unfold samples. now rewrite map_length, seq_length. Qed.

Section Fits.
Variables W Op G : Type.
Variable manual_seed : Z -> G.
Variable randperm : G -> nat -> list nat * G.
Variable build : list nat -> G -> W * G.
Variable opt : W -> Op.
Variable step : list (sample * nat) -> W -> Op -> G -> W * Op * G.
Notation core := (fit_core W Op G manual_seed randperm build opt step).
Notation logreg := (logreg_fit W Op G manual_seed randperm build opt step).
Notation mlp := (mlp_fit W Op G manual_seed randperm build opt step).
Notation text := (text_fit W Op G manual_seed randperm build opt step).
Notation image := (image_fit W Op G manual_seed randperm build opt step).
Lemma logreg_cases sp X y obj g :
  (exists e, logreg sp X y obj g = (obj, Err e, g) /\ ~ (flat_data X y /\ loop_ok sp)) \/
  (exists x l t, X = Some x /\ y = Some l /\ as_2d x = Ok t /\ flattened x t /\ t_n t = length (l_data l) /\ flat_data X y /\ loop_ok sp /\
     logreg sp X y obj g = core sp false false (fun k => [volume (tl (t_shape x)); k]) t l obj g).
Proof.
  unfold logreg_fit, stops. destruct X as [x|]; [|left; eexists; split; [reflexivity|intros ((? & ? & H & _) & _); discriminate]].
  destruct y as [l|]; [|left; eexists; split; [reflexivity|intros ((? & ? & _ & H & _) & _); discriminate]].
  destruct (as_2d x) as [t|e] eqn:E; cbn [bind].
  - pose proof (as_2d_ok _ _ E) as HF. pose proof (flattened_volume _ _ HF) as (HN & HV & HW). destruct HF as (F0 & F1 & F2 & F3).
    assert (HD : check_data t l = Ok tt <-> flat_data (Some x) (Some l)).
    { rewrite check_data_ok, HN, HV, F3. unfold flat_data. split; [intros (A & B & C); exists x, l; repeat split; assumption|]. intros (x0 & l0 & [= <-] & [= <-] & _ & A & B & C). now repeat split. }
    destruct (check_data t l) as [[]|e] eqn:EC; cbn [bind]; [|left; exists e; split; [reflexivity|]; intros (H & _); apply HD in H; discriminate].
    destruct (check_loop sp) as [[]|e] eqn:EL; cbn [bind]; [|left; exists e; split; [reflexivity|]; intros (_ & H); apply check_loop_ok in H; congruence].
    right. exists x, l, t. rewrite HW. split; [reflexivity|]. split; [reflexivity|]. split; [exact E|]. split; [repeat split; assumption|]. split; [apply check_data_ok in EC; tauto|]. split; [now apply HD|]. split; [now apply check_loop_ok|reflexivity].
  - left. exists e. split; [reflexivity|]. intros ((x0 & l0 & [= <-] & [= <-] & A & B & C & D) & _). destruct (as_2d_returns x C A) as (t & H). congruence.
Qed.
Lemma mlp_cases sp X y obj g :
  (exists e, mlp sp X y obj g = (obj, Err e, g) /\ ~ (flat_data X y /\ loop_ok sp /\ (0 < ts_lr sp)%Q /\ (0 <= ts_dropout sp)%Q /\ (ts_dropout sp < 1)%Q /\ forall h, In h (ts_hidden sp) -> (0 < h)%Z)) \/
  (exists x l t, X = Some x /\ y = Some l /\ as_2d x = Ok t /\ flattened x t /\ t_n t = length (l_data l) /\ flat_data X y /\ loop_ok sp /\
     ((0 < ts_lr sp)%Q /\ (0 <= ts_dropout sp)%Q /\ (ts_dropout sp < 1)%Q) /\ (forall h, In h (ts_hidden sp) -> (0 < h)%Z) /\
     mlp sp X y obj g = core sp true (negb (Nat.eqb (length (ts_hidden sp)) 0)) (fun k => volume (tl (t_shape x)) :: map Z.to_nat (ts_hidden sp) ++ [k]) t l obj g).
Proof.
  unfold mlp_fit, stops. destruct X as [x|]; [|left; eexists; split; [reflexivity|intros ((? & ? & H & _) & _); discriminate]].
  destruct y as [l|]; [|left; eexists; split; [reflexivity|intros ((? & ? & _ & H & _) & _); discriminate]].
  destruct (as_2d x) as [t|e] eqn:E; cbn [bind].
  - pose proof (as_2d_ok _ _ E) as HF. pose proof (flattened_volume _ _ HF) as (HN & HV & HW). destruct HF as (F0 & F1 & F2 & F3).
    assert (HD : check_data t l = Ok tt <-> flat_data (Some x) (Some l)).
    { rewrite check_data_ok, HN, HV, F3. unfold flat_data. split; [intros (A & B & C); exists x, l; repeat split; assumption|]. intros (x0 & l0 & [= <-] & [= <-] & _ & A & B & C). now repeat split. }
    destruct (check_data t l) as [[]|e] eqn:EC; cbn [bind]; [|left; exists e; split; [reflexivity|]; intros (H & _); apply HD in H; discriminate].
    destruct (check_loop sp) as [[]|e] eqn:EL; cbn [bind]; [|left; exists e; split; [reflexivity|]; intros (_ & H & _); apply check_loop_ok in H; congruence].
    destruct (check_rates sp) as [[]|e] eqn:ER; cbn [bind]; [|left; exists e; split; [reflexivity|]; intros (_ & _ & H1 & H2 & H3 & _); assert (check_rates sp = Ok tt) by (apply check_rates_ok; now repeat split); congruence].
    destruct (existsb (fun h => h <=? 0)%Z (ts_hidden sp)) eqn:EH; [left; eexists; split; [reflexivity|]; intros (_ & _ & _ & _ & _ & H); apply all_positive in H; congruence|].
    right. exists x, l, t. rewrite HW. split; [reflexivity|]. split; [reflexivity|]. split; [exact E|]. split; [repeat split; assumption|]. split; [apply check_data_ok in EC; tauto|]. split; [now apply HD|]. split; [now apply check_loop_ok|]. split; [now apply check_rates_ok|]. split; [now apply all_positive|reflexivity].
  - left. exists e. split; [reflexivity|]. intros ((x0 & l0 & [= <-] & [= <-] & A & B & C & D) & _). destruct (as_2d_returns x C A) as (t & H). congruence.
Qed.
Lemma text_cases sp X y obj g :
  (exists e, text sp X y obj g = (obj, Err e, g) /\ ~ text_needs sp X y) \/
  (exists x l t usable, X = Some x /\ y = Some l /\ text_input (ts_layout sp) x = Ok t /\ t_n t = length (l_data l) /\ text_needs sp X y /\
     usable = filter (fun k => (k <=? Z.of_nat (nth 2 (t_shape t) O))%Z) (ts_kernels sp) /\
     text sp X y obj g = let '(o, r, g) := core sp true true (fun k => hd O (tl (t_shape t)) :: map Z.to_nat usable ++ [k]) t l obj g in
       match r with
       | Ok _ => ({| tc_model := tc_model W o; tc_width := tc_width W o; tc_classes := tc_classes W o; tc_shape := tc_shape W o; tc_kernels := Some usable |}, r, g)
       | Err _ => (o, r, g)
       end).
Proof.
  unfold text_fit, stops. destruct y as [l|]; [|left; eexists; split; [reflexivity|intros ((? & ? & ? & ? & _ & H & _) & _); discriminate]].
  destruct X as [x|]; [|left; exists SupervisedError; split; [now destruct (ts_layout sp)|intros ((? & ? & ? & ? & H & _) & _); discriminate]].
  assert (HL : ts_layout sp = OtherLayout \/ ts_layout sp <> OtherLayout) by (destruct (ts_layout sp); [right|right|left]; congruence).
  destruct HL as [HL|HL]; [rewrite HL; left; eexists; split; [reflexivity|intros ((? & ? & ? & ? & _ & _ & H & _) & _); congruence]|].
  assert (HS : forall t0, text_input (ts_layout sp) x = Ok t0 -> t_n t0 = t_n x /\ volume (t_shape t0) = volume (t_shape x) /\ t_dev t0 = t_dev x) by (intros t0 H; apply text_input_ok in H; pose proof (sequences_shape _ _ _ H); destruct H; tauto).
  match goal with |- ?P => assert (HGoal : forall lay, lay = ts_layout sp -> lay <> OtherLayout -> P); [|exact (HGoal (ts_layout sp) eq_refl HL)] end.
  intros lay Hlay HO. rewrite <- Hlay in *. destruct lay; [| |congruence]; rename Hlay into Elay;
  (match type of HS with (forall t0, text_input ?l x = _ -> _) => destruct (text_input l x) as [t|e] eqn:E end; cbn [bind];
    [|left; exists e; split; [reflexivity|]; intros ((x0 & l0 & t0 & k0 & [= <-] & [= <-] & _ & H & _) & _); rewrite <- Elay in H; destruct (sequences_returns _ _ _ HO H) as (t1 & H1 & _); congruence];
   destruct (HS t eq_refl) as (S1 & S2 & S3);
   destruct (check_data t l) as [[]|e] eqn:EC; cbn [bind];
     [|left; exists e; split; [reflexivity|]; intros ((x0 & l0 & t0 & k0 & [= <-] & [= <-] & _ & _ & A & B & C & _) & _); assert (check_data t l = Ok tt) by (apply check_data_ok; rewrite S1, S2, S3; now repeat split); congruence];
   destruct (Nat.eqb_spec (length (ts_kernels sp)) 0) as [HK0|HK0]; cbn [orb bind];
     [left; eexists; split; [reflexivity|]; intros ((x0 & l0 & t0 & k0 & _ & _ & _ & _ & _ & _ & _ & HI & _) & _); destruct (ts_kernels sp); [destruct HI|discriminate]|];
   destruct (Z.leb_spec (ts_filters sp) 0) as [HF0|HF0]; cbn [orb bind];
     [left; eexists; split; [reflexivity|]; intros (_ & _ & _ & H & _); lia|];
   destruct (check_loop sp) as [[]|e] eqn:EL; cbn [bind]; [|left; exists e; split; [reflexivity|]; intros (_ & H & _); apply check_loop_ok in H; congruence];
   destruct (check_rates sp) as [[]|e] eqn:ER; cbn [bind]; [|left; exists e; split; [reflexivity|]; intros (_ & _ & H & _); apply check_rates_ok in H; congruence];
   destruct (existsb (fun h => h <=? 0)%Z (ts_kernels sp)) eqn:EH; [left; eexists; split; [reflexivity|]; intros (_ & _ & _ & _ & H); apply all_positive in H; congruence|];
   cbv zeta; destruct (filter (fun k => (k <=? Z.of_nat (nth 2 (t_shape t) O))%Z) (ts_kernels sp)) as [|u us] eqn:EU; cbn [length Nat.eqb];
     [left; eexists; split; [reflexivity|]; intros ((x0 & l0 & t0 & k0 & [= <-] & [= <-] & _ & HT & _ & _ & _ & HI & HK) & _); rewrite <- Elay in HT; destruct (sequences_returns _ _ _ HO HT) as (t1 & HT1 & HT2); rewrite E in HT1; injection HT1 as <-; rewrite <- HT2 in HK;
      assert (HIn : In k0 (filter (fun k => (k <=? Z.of_nat (nth 2 (t_shape t) O))%Z) (ts_kernels sp))) by (apply filter_In; split; [exact HI|lia]); rewrite EU in HIn; destruct HIn|];
   right; exists x, l, t, (u :: us); split; [reflexivity|]; split; [reflexivity|]; split; [congruence|]; apply check_data_ok in EC as (C1 & C2 & C3); split; [exact C1|];
   split; [|split; [symmetry; exact EU|reflexivity]];
   split; [exists x, l, t, u; split; [reflexivity|]; split; [reflexivity|]; split; [rewrite <- Elay; exact HO|]; split; [rewrite <- Elay; now apply text_input_ok|]; split; [congruence|]; split; [congruence|]; split; [congruence|];
           assert (HIn : In u (u :: us)) by (left; reflexivity); rewrite <- EU in HIn; apply filter_In in HIn; split; [tauto|lia]|];
   split; [now apply check_loop_ok|]; split; [now apply check_rates_ok|]; split; [lia|]; now apply all_positive).
Qed.
Definition with_shape (s : nat * nat * nat) (obj : tclf W) : tclf W :=
  {| tc_model := tc_model W obj; tc_width := tc_width W obj; tc_classes := tc_classes W obj; tc_shape := Some s; tc_kernels := tc_kernels W obj |}.
Lemma image_cases sp X y obj g :
  (exists e, image sp X y obj g = (obj, Err e, g) /\ ~ (exists x l s t, X = Some x /\ y = Some l /\ image_input (tc_shape W obj) (ts_input_shape sp) x = Ok (s, t))) \/
  (exists x l s t, X = Some x /\ y = Some l /\ image_input (tc_shape W obj) (ts_input_shape sp) x = Ok (s, t) /\
     ((exists e, image sp X y obj g = (with_shape s obj, Err e, g) /\ ~ image_needs sp t l) \/
      (image_needs sp t l /\ image sp X y obj g = core sp true true (fun k => fst (fst s) :: map Z.to_nat (ts_conv sp) ++ [k]) t l (with_shape s obj) g))).
Proof.
  unfold image_fit, stops. destruct y as [l|]; [|left; eexists; split; [reflexivity|intros (? & ? & ? & ? & _ & H & _); discriminate]].
  destruct X as [x|]; [|left; eexists; split; [reflexivity|intros (? & ? & ? & ? & H & _); discriminate]].
  destruct (image_input (tc_shape W obj) (ts_input_shape sp) x) as [[s t]|e] eqn:E; [|left; exists e; split; [reflexivity|intros (? & ? & ? & ? & [= <-] & _ & H); congruence]].
  right. exists x, l, s, t. split; [reflexivity|]. split; [reflexivity|]. split; [exact E|]. fold (with_shape s obj).
  destruct (check_data t l) as [[]|e] eqn:EC; cbn [bind]; [|left; exists e; split; [reflexivity|]; intros (A & B & C & _); assert (check_data t l = Ok tt) by (apply check_data_ok; now repeat split); congruence].
  destruct (Nat.eqb_spec (length (ts_conv sp)) 0) as [H0|H0]; cbn [orb bind]; [left; eexists; split; [reflexivity|]; intros (_ & _ & _ & _ & _ & H & _); apply length_zero_iff_nil in H0; congruence|].
  destruct (Z.leb_spec (ts_kernel sp) 0) as [H1|H1]; cbn [orb bind]; [left; eexists; split; [reflexivity|]; intros (_ & _ & _ & _ & _ & _ & H & _); lia|].
  destruct (Z.ltb_spec (ts_fc sp) 0) as [H2|H2]; cbn [orb bind]; [left; eexists; split; [reflexivity|]; intros (_ & _ & _ & _ & _ & _ & _ & H & _); lia|].
  destruct (check_loop sp) as [[]|e] eqn:EL; cbn [bind]; [|left; exists e; split; [reflexivity|]; intros (_ & _ & _ & H & _); apply check_loop_ok in H; congruence].
  destruct (check_rates sp) as [[]|e] eqn:ER; cbn [bind]; [|left; exists e; split; [reflexivity|]; intros (_ & _ & _ & _ & H & _); apply check_rates_ok in H; congruence].
  destruct (existsb (fun h => h <=? 0)%Z (ts_conv sp)) eqn:EH; [left; eexists; split; [reflexivity|]; intros (_ & _ & _ & _ & _ & _ & _ & _ & H); apply all_positive in H; congruence|].
  right. split; [|reflexivity]. apply check_data_ok in EC as (C1 & C2 & C3). split; [exact C1|]. split; [exact C2|]. split; [exact C3|]. split; [now apply check_loop_ok|]. split; [now apply check_rates_ok|]. split; [intros HC; rewrite HC in H0; now apply H0|]. split; [lia|]. split; [lia|]. now apply all_positive.
Qed.
End Fits.

Lemma seed_is_of sp s : seed_is sp s <-> seed_of sp = s.
Proof. unfold seed_is, seed_of. destruct (ts_seed sp); split; intros H; [destruct H as [[= ->]|[H _]]; [reflexivity|discriminate]|left; now subst|destruct H as [H|[_ ->]]; [discriminate|reflexivity]|right; now split]. Qed.
Lemma scores_answers {W} (logits : W -> sample -> list Q) softmax argmax w t classes obj d : softmax_ok softmax -> argmax_ok argmax -> classes <> [] -> (forall s, length (logits w s) = length classes) -> tc_classes W obj = Some (classes, d) ->
  exists out, predict_of W argmax obj (Ok (scores_of W logits softmax w t)) = Ok out /\ answers classes (t_n t) (scores_of W logits softmax w t) out.
Proof.
  intros HS HA HC HL HO. unfold predict_of. cbn [bind]. rewrite HO. eexists. split; [reflexivity|].
  assert (HR : forall s, length (softmax (logits w s)) = length classes) by (intros s; now rewrite (proj1 (HS _)), HL).
  assert (HN : forall s, softmax (logits w s) <> []) by (intros s H; specialize (HR s); rewrite H in HR; destruct classes; [congruence|discriminate]).
  split; [split; [unfold scores_of; now rewrite map_length, samples_length|]|].
  { intros r Hr. apply in_map_iff in Hr as (s & <- & _). apply HR. }
  split; [intros r Hr; apply in_map_iff in Hr as (s & <- & _); split; [apply HS|apply HS]; intros H; specialize (HL s); rewrite H in HL; destruct classes; [congruence|discriminate]|].
  split; [unfold scores_of; now rewrite !map_length, samples_length|]. intros i Hi.
  set (P := scores_of W logits softmax w t). assert (HP : length P = t_n t) by (unfold P, scores_of; now rewrite map_length, samples_length).
  assert (HI : nth i P [] = softmax (logits w (nth i (samples t) ([], [])))).
  { unfold P, scores_of. rewrite (nth_indep _ [] (softmax (logits w ([], [])))) by (rewrite map_length, samples_length; exact Hi). exact (map_nth (fun s => softmax (logits w s)) (samples t) ([], []) i). }
  exists (argmax (nth i P [])). destruct (HA (nth i P [])) as (A1 & A2); [rewrite HI; apply HN|]. split; [rewrite HI, HR in A1; rewrite HI; exact A1|]. split; [|exact A2].
  rewrite (nth_indep _ 0%Z (nth (argmax []) classes 0%Z)) by (rewrite map_length; lia). exact (map_nth (fun r => nth (argmax r) classes 0%Z) P [] i).
Qed.

