(* C126: the transductive support vector machine. *)
From Coq Require Import QArith Qminmax Qabs Lqa Permutation Lia.
From Coq Require Import ZifyBool ZifyNat.
From Verif Require Import Prelude ListFacts QFacts SamplingSpec InductSpec InductFitProofs PlapSpec PlapProps TransModel TsvmModel TsvmSpec TsvmProofs.
Local Open Scope Q_scope.
Local Open Scope list_scope.
Local Notation length := List.length.

(* a fit returns exactly when the dataset can be trained on and batches can be made *)
Theorem C126_returns G permutation argsort sp d w0 (g : G) :
  (exists r, tsvm_fit G permutation argsort sp d w0 g = Ok r) <-> (exists train neg pos, trainable d train neg pos) /\ (ts_batch sp <> 0%Z \/ (ts_epochs sp <= 0)%Z).
Proof. apply tsvm_fit_returns. Qed.
Print Assumptions C126_returns.

(* what is returned comes from training on the labelled nodes and then on the labelled nodes and the guesses, as specified *)
Theorem C126_run G permutation argsort sp d w0 (g : G) neg pos m width :
  (forall idx g, Permutation (fst (permutation idx g)) idx) -> sorts_positions argsort ->
  (forall x, In x (td_X d) -> length x = width) -> length w0 = width -> (0 < ts_batch sp)%Z ->
  tsvm_fit G permutation argsort sp d w0 g = Ok ((neg, pos), m) ->
  exists train, trainable d train neg pos /\
    tsvm_run width (ts_lr sp) (ts_l2 sp) (Z.to_nat (ts_batch sp)) (Z.to_nat (ts_epochs sp)) (ts_balance sp) (ts_C_l sp) (ts_C_u_max sp)
      (labelled_rows d train neg pos) (unlabelled_rows d train) w0 (Z.to_nat (ts_max_iter sp)) (sv_w m, sv_b m) /\ length (sv_w m) = width.
Proof.
  intros HP HA HX Hw Hb H. apply tsvm_fit_shape in H as (train & n' & p' & m0 & g0 & m' & HT & EF & ER & [= <- <- <-]). exists train. split; [exact HT|].
  assert (HI : forall mask i, length mask = length (td_X d) -> In i (chosen mask) -> length (nth i (td_X d) []) = width).
  { intros mask i HL Hi. apply chosen_In in Hi. apply HX, nth_In. rewrite <- HL. destruct (Nat.lt_ge_cases i (length mask)); [assumption|]. rewrite nth_overflow in Hi by lia. discriminate. }
  destruct HT as (L & _ & _ & _ & Lt & Lu & _).
  assert (Hl : forall e, In e (labelled_rows d train neg pos) -> length (fst e) = width).
  { intros e He. apply in_map_iff in He as (i & <- & Hi). cbn [fst]. apply (HI train i); [lia|exact Hi]. }
  assert (Hu : forall x, In x (unlabelled_rows d train) -> length x = width).
  { intros x Hx. apply in_map_iff in Hx as (i & <- & Hi). apply (HI (unlabelled_mask d train) i); [|exact Hi]. unfold unlabelled_mask. destruct (td_unlabeled d) as [u|]; [rewrite (Lu u eq_refl); lia|rewrite map_length; lia]. }
  destruct (fit_sgd_trained G permutation HP width (ts_lr sp) (ts_l2 sp) (ts_C_l sp) (ts_batch sp) _ Hb Hl (Z.to_nat (ts_epochs sp)) {| sv_w := w0; sv_b := 0 |} g Hw) as (m1 & g1 & E1 & T1 & L1).
  rewrite EF in E1. injection E1 as <- <-. destruct (unlabelled_rows d train) as [|u us] eqn:EU.
  - assert (m = m0) as ->; [|split; [|exact L1]; exists (mach m0); split; [exact T1|]; left; split; reflexivity]. destruct (Z.to_nat (ts_max_iter sp)); cbn [rounds] in ER; congruence.
  - destruct (rounds_improved G permutation argsort HP HA width sp (labelled_rows d train neg pos) (u :: us) Hb Hl Hu ltac:(discriminate) (Z.to_nat (ts_max_iter sp)) (1 # 1000) m0 g0 L1) as (m1 & E1 & I1 & L2).
    rewrite ER in E1. injection E1 as <-. split; [|exact L2]. exists (mach m0). split; [exact T1|]. right. split; [discriminate|exact I1].
Qed.
Print Assumptions C126_run.

(* every step goes against a subgradient of the objective over the violated examples of its batch *)
Theorem C126_subgradient lr C l2 batch m width : 0 <= l2 -> 0 <= C -> length (sv_w m) = width -> (forall e, In e batch -> length (fst e) = width) ->
  exists gw gb, subgradient width (objective width l2 C (filter (violated width (sv_w m, sv_b m)) batch)) (sv_w m, sv_b m) gw gb /\
    (forall j, (j < width)%nat -> nth j (sv_w (sgd_step lr C l2 batch m)) 0 == nth j (sv_w m) 0 - lr * gw j) /\ sv_b (sgd_step lr C l2 batch m) == sv_b m - lr * gb.
Proof.
  intros Hl HC Hw Hb. pose proof (sgd_moved width lr l2 C batch m Hw Hb) as (_ & H1 & H2). fold (mach m). eexists _, _. split; [apply (step_subgradient width l2 C batch (mach m) Hl HC)|]. split.
  - intros j Hj. specialize (H1 j Hj). cbn [mach fst snd] in *. rewrite H1. ring.
  - cbn [mach fst snd] in *. rewrite H2. ring.
Qed.
Print Assumptions C126_subgradient.

(* the weights never leave a box that holds the initial ones and is large enough for the features and penalties *)
Theorem C126_bounded G permutation argsort sp d w0 (g : G) c m width K B M :
  (forall idx g, Permutation (fst (permutation idx g)) idx) -> sorts_positions argsort ->
  (forall x, In x (td_X d) -> length x = width) -> length w0 = width -> (0 < ts_batch sp)%Z ->
  0 <= ts_lr sp -> 0 <= ts_l2 sp -> ts_lr sp * ts_l2 sp <= 1 -> 0 <= ts_C_l sp <= K -> ts_C_u_max sp <= K -> 1 # 1000 <= K ->
  0 <= B -> (forall x v, In x (td_X d) -> In v x -> Qabs v <= B) -> (forall v, In v w0 -> Qabs v <= M) -> K * B <= ts_l2 sp * M ->
  tsvm_fit G permutation argsort sp d w0 g = Ok (c, m) -> forall v, In v (sv_w m) -> Qabs v <= M.
Proof.
  intros HP HA HX Hw Hb H1 H2 H3 H4 H5 H6 H7 H8 H9 H10 HF v Hv. destruct c as [neg pos].
  destruct (C126_run G permutation argsort sp d w0 g neg pos m width HP HA HX Hw Hb HF) as (train & HT & HR & HL).
  assert (ROW : forall i j, (j < width)%nat -> Qabs (nth j (nth i (td_X d) []) 0) <= B).
  { intros i j Hj. destruct (Nat.lt_ge_cases i (length (td_X d))) as [Hi|Hi].
    - pose proof (nth_In (td_X d) [] Hi) as HIn. apply (H8 (nth i (td_X d) [])); [exact HIn|]. apply nth_In. rewrite (HX _ HIn). exact Hj.
    - rewrite (nth_overflow (td_X d)) by exact Hi. destruct j; exact H7. }
  apply (In_nth _ _ 0) in Hv as (j & Hj & <-). rewrite HL in Hj.
  refine (tsvm_run_small width (Z.to_nat (ts_batch sp)) (Z.to_nat (ts_epochs sp)) (ts_lr sp) (ts_l2 sp) K B M (ts_C_l sp) (ts_C_u_max sp) (ts_balance sp) (labelled_rows d train neg pos) (unlabelled_rows d train) H1 H2 H3 H7 H10 H6 H4 H5 _ _ w0 _ _ _ HR j Hj).
  - intros e He. apply in_map_iff in He as (i & <- & _). split; cbn [fst snd]; [intros j' Hj'; apply ROW, Hj'|]. unfold sign_of. destruct (_ =? neg)%Z; [apply Qle_refl|]. destruct (_ =? pos)%Z; discriminate.
  - intros x Hx j' Hj'. apply in_map_iff in Hx as (i & <- & _). apply ROW, Hj'.
  - intros j' Hj'. cbn [fst]. apply H9, nth_In. lia.
Qed.
Print Assumptions C126_bounded.

(* with both classes among the labelled nodes, hidden labels, metadata, other masks and the graph have no effect *)
Theorem C126_hidden G permutation argsort sp d1 d2 w0 (g : G) train a b r1 r2 :
  td_X d1 = td_X d2 -> td_train d1 = Some train -> td_train d2 = Some train -> td_unlabeled d1 = td_unlabeled d2 ->
  (forall i, nth i train false = true -> nth i (td_y d1) (-1)%Z = nth i (td_y d2) (-1)%Z) -> two_classes (shown (td_y d1) train) a b ->
  tsvm_fit G permutation argsort sp d1 w0 g = Ok r1 -> tsvm_fit G permutation argsort sp d2 w0 g = Ok r2 -> r1 = r2.
Proof.
  intros HX T1 T2 HU HY HC F1 F2.
  apply tsvm_fit_shape in F1 as (t1 & n1 & p1 & m1 & g1 & s1 & (_ & _ & _ & E1 & _ & _ & _ & _ & C1) & EF1 & ER1 & ->). apply tsvm_fit_shape in F2 as (t2 & n2 & p2 & m2 & g2 & s2 & (_ & _ & _ & E2 & _ & _ & _ & _ & C2) & EF2 & ER2 & ->).
  rewrite T1 in E1. injection E1 as <-. rewrite T2 in E2. injection E2 as <-.
  assert (SH : shown (td_y d1) train = shown (td_y d2) train) by (apply map_ext_in; intros i Hi; apply HY; now apply chosen_In).
  assert (n1 = a /\ p1 = b) as [-> ->]. { destruct C1 as [C|[C _]]; [destruct (two_classes_fun _ _ _ _ _ HC C); auto|exfalso; exact (C a b HC)]. }
  rewrite SH in HC. assert (n2 = a /\ p2 = b) as [-> ->]. { destruct C2 as [C|[C _]]; [destruct (two_classes_fun _ _ _ _ _ HC C); auto|exfalso; exact (C a b HC)]. }
  assert (LR : labelled_rows d1 train a b = labelled_rows d2 train a b).
  { apply map_ext_in. intros i Hi. rewrite HX. rewrite (HY i) by now apply chosen_In. reflexivity. }
  assert (UR : unlabelled_rows d1 train = unlabelled_rows d2 train) by (unfold unlabelled_rows, unlabelled_mask; rewrite HX, HU; reflexivity).
  rewrite LR in EF1, ER1. rewrite UR in ER1. congruence.
Qed.
Print Assumptions C126_hidden.

(* with balance and at least two nodes to guess, both signs are guessed *)
Theorem C126_both_signs argsort scores : sorts_positions argsort -> (2 <= length scores)%nat ->
  In 1 (guesses argsort true scores) /\ In (-(1)) (guesses argsort true scores).
Proof.
  intros HA H2. destruct (guesses_guessed argsort HA true scores) as (HL & N & S). set (l := guesses argsort true scores) in *.
  destruct (forallb (fun s => Qle_bool 0 s) scores || forallb (fun s => negb (Qle_bool 0 s)) scores) eqn:E.
  - apply same_sign_iff in E. destruct (S (conj eq_refl E)) as (V & C & _).
    assert (D2 : (1 <= Nat.div (length scores) 2 < length scores)%nat) by (split; [apply Nat.div_le_lower_bound; lia|apply Nat.div_lt; lia]).
    split.
    + assert (D : In 1 l \/ filter (fun s => Qeq_bool s (-(1))) l = l).
      { clear -V. induction l as [|x l IH]; [now right|]. destruct (V x (or_introl eq_refl)) as [->| ->]; [left; now left|].
        destruct (IH (fun s Hs => V s (or_intror Hs))) as [H|H]; [left; now right|right]. cbn [filter]. change (Qeq_bool (-(1)) (-(1))) with true. cbn [filter]. now rewrite H. }
      destruct D as [D|D]; [exact D|]. rewrite D, HL in C. lia.
    + destruct (filter (fun s => Qeq_bool s (-(1))) l) as [|x r] eqn:EF; [cbn [List.length] in C; lia|]. assert (Hx : In x (filter (fun s => Qeq_bool s (-(1))) l)) by (rewrite EF; now left).
      apply filter_In in Hx as [Hx Ex]. destruct (V x Hx) as [->| ->]; [discriminate Ex|exact Hx].
  - assert (NS : ~ (true = true /\ same_sign scores)) by (intros [_ X]; apply same_sign_iff in X; congruence). specialize (N NS). apply orb_false_iff in E as [E1 E2].
    assert (X : forall f : Q -> bool, forallb f scores = false -> exists i, (i < length scores)%nat /\ f (nth i scores 0) = false).
    { intros f Hf. clear -Hf. induction scores as [|s r IH]; [discriminate|]. cbn in Hf. destruct (f s) eqn:Es; [destruct (IH Hf) as (i & Hi & E); exists (Datatypes.S i); split; [cbn; lia|exact E]|exists O; split; [cbn; lia|exact Es]]. }
    destruct (X _ E1) as (i & Hi & Ei). destruct (X _ E2) as (j & Hj & Ej). split.
    + rewrite <- (proj1 (N j Hj)); [apply nth_In; lia|]. apply Qle_bool_iff. destruct (Qle_bool 0 (nth j scores 0)); [reflexivity|discriminate].
    + rewrite <- (proj2 (N i Hi)); [apply nth_In; lia|]. apply Qnot_le_lt. intros H. apply Qle_bool_iff in H. congruence.
Qed.
Print Assumptions C126_both_signs.

(* predictions: nothing before fit; then two positive shares that add up to 1, the second at least a half exactly when the
   decision function is not negative *)
Theorem C126_probabilities ex fitted X : exp_ok ex ->
  (fitted = None -> predict_proba ex fitted X = Err RuntimeError) /\
  (forall c m width, fitted = Some (c, m) -> length (sv_w m) = width -> (forall x, In x X -> length x = width) ->
   exists P, predict_proba ex fitted X = Ok P /\ length P = length X /\
     forall i, (i < length X)%nat -> exists p0 p1, nth i P [] = [p0; p1] /\ 0 < p0 /\ 0 < p1 /\ p0 + p1 == 1 /\ (1 # 2 <= p1 <-> 0 <= decision width (sv_w m, sv_b m) (nth i X []))).
Proof.
  intros (E0 & EP & EM & EE). split; [intros ->; reflexivity|]. intros c m width -> Hw HX. cbn [predict_proba]. eexists. split; [reflexivity|]. split; [apply map_length|].
  intros i Hi. rewrite (TransProofs.nth_map_in _ X i []) by exact Hi. set (x := nth i X []). assert (Lx : length x = width) by (apply HX, nth_In, Hi).
  pose proof (score_decision width m x Hw Lx) as SD. fold (mach m). set (s := score m x) in *. set (e := ex (- s)). assert (He : 0 < e) by apply EP.
  exists (1 - 1 / (1 + e)), (1 / (1 + e)). split; [reflexivity|].
  assert (P1 : 0 < 1 / (1 + e)) by (apply Qlt_shift_div_l; lra). assert (P2 : 1 / (1 + e) < 1) by (apply Qlt_shift_div_r; lra).
  split; [lra|]. split; [exact P1|]. split; [ring|]. rewrite <- SD.
  assert (HH : 1 # 2 <= 1 / (1 + e) <-> e <= 1).
  { split; intros H.
    - assert (1 / (1 + e) * (1 + e) == 1) by (field; lra). assert ((1 # 2) * (1 + e) <= 1 / (1 + e) * (1 + e)) by (apply Qmult_le_compat_r; lra). lra.
    - apply Qle_shift_div_l; lra. }
  rewrite HH. unfold e. split; intros H.
  - destruct (Qlt_le_dec s 0) as [Hs|]; [|assumption]. exfalso. assert (ex 0 < ex (- s)) by (apply EM; lra). lra.
  - destruct (Qlt_le_dec 0 s) as [Hs|Hs]; [assert (ex (- s) < ex 0) by (apply EM; lra); lra|]. assert (ex (- s) == ex 0) by (apply EE; lra). lra.
Qed.
Print Assumptions C126_probabilities.

(* ---- instances *)
Definition toy_perm (idx : list nat) (g : unit) : list nat * unit := (rev idx, g).
Lemma toy_perm_ok : forall idx g, Permutation (fst (toy_perm idx g)) idx.
Proof. intros. symmetry. apply Permutation_rev. Qed.
Definition toy_data (y : list Z) (train : list bool) (X : list (list Q)) : tsvm_data :=
  {| td_X := X; td_y := y; td_edges := [(0%Z, 1%Z)]; td_train := Some train; td_unlabeled := None; td_others := []; td_y_true := None |}.
Definition toy_sp (bs : Z) (cmax : Q) : tsvm_spec := {| ts_max_iter := 1; ts_epochs := 1; ts_batch := bs; ts_lr := 1 # 2; ts_C_l := 1 # 1000; ts_C_u_max := cmax; ts_l2 := 1; ts_balance := true |}.
Definition toy_X : list (list Q) := [[1]; [-(1)]; [2]; [-(2)]].
Definition toy_fit sp d := tsvm_fit unit toy_perm ref_argsortQ sp d [1 # 10] tt.

(* the labelled nodes show one class: whether fit returns depends on the label of an unlabelled node *)
Theorem C126_leak_refuted : exists sp d1 d2 train, td_X d1 = td_X d2 /\ td_train d1 = Some train /\ td_train d2 = Some train /\ td_unlabeled d1 = td_unlabeled d2 /\
  (forall i, nth i train false = true -> nth i (td_y d1) (-1)%Z = nth i (td_y d2) (-1)%Z) /\
  (exists r, toy_fit sp d1 = Ok r) /\ toy_fit sp d2 = Err ValueError.
Proof.
  exists (toy_sp 2 1), (toy_data [0; 1]%Z [true; false] [[1]; [2]]), (toy_data [0; -1]%Z [true; false] [[1]; [2]]), [true; false].
  repeat (split; [reflexivity|]). split; [|split; [eexists|]; vm_compute; reflexivity]. intros [|[|[|i]]] H; cbn in *; congruence.
Qed.
Print Assumptions C126_leak_refuted.

(* all scores are negative: the node that is most clearly negative is guessed positive, and a single node is always guessed
   positive *)
Theorem C126_balance_refuted : (forall argsort, sorts_positions argsort -> guesses argsort true [-(1); -(5)] = [-(1); 1]) /\ (forall argsort, sorts_positions argsort -> guesses argsort true [-(5)] = [1]).
Proof.
  split; intros argsort HA.
  - destruct (guesses_guessed argsort HA true [-(1); -(5)]) as (L & _ & S). assert (SS : same_sign [-(1); -(5)]) by (right; intros s [<-|[<-|[]]]; reflexivity).
    destruct (S (conj eq_refl SS)) as (V & C & O). destruct (guesses argsort true [-(1); -(5)]) as [|x [|y [|z r]]]; try discriminate L.
    destruct (V x (or_introl eq_refl)) as [->| ->], (V y (or_intror (or_introl eq_refl))) as [->| ->]; try discriminate C; [|reflexivity].
    exfalso. specialize (O 1%nat 0%nat ltac:(cbn; lia) ltac:(cbn; lia) eq_refl eq_refl). apply O. reflexivity.
  - destruct (guesses_guessed argsort HA true [-(5)]) as (L & _ & S). assert (SS : same_sign [-(5)]) by (right; intros s [<-|[]]; reflexivity).
    destruct (S (conj eq_refl SS)) as (V & C & _). destruct (guesses argsort true [-(5)]) as [|x [|y r]]; try discriminate L. destruct (V x (or_introl eq_refl)) as [->| ->]; [reflexivity|discriminate C].
Qed.
Print Assumptions C126_balance_refuted.

(* three classes of which the labelled nodes show 0 and 2: accepted, and the second column stands for class 2 *)
Theorem C126_columns_refuted : exists sp d m, In 1%Z (td_y d) /\ toy_fit sp d = Ok ((0%Z, 2%Z), m) /\
  (exists P, predict_proba toy_exp (Some ((0%Z, 2%Z), m)) (td_X d) = Ok P /\ forall r, In r P -> length r = 2%nat).
Proof.
  exists (toy_sp 2 1), (toy_data [2; 0; 1]%Z [true; true; false] [[1]; [-(1)]; [2]]). eexists. split; [cbn; auto|]. split; [vm_compute; reflexivity|].
  eexists. split; [reflexivity|]. intros r Hr. apply in_map_iff in Hr as (x & <- & _). reflexivity.
Qed.
Print Assumptions C126_columns_refuted.

(* C_u_max = 0 does not switch the unlabelled nodes off: the first round takes 1/1000 whatever C_u_max is *)
Theorem C126_cap_refuted : exists d1 d2 r1 r2, td_y d1 = td_y d2 /\ td_train d1 = td_train d2 /\
  (forall i, In i [0; 1]%nat -> nth i (td_X d1) [] = nth i (td_X d2) []) /\ shown (td_y d1) [true; true; false; false] = [1; 0]%Z /\ td_train d1 = Some [true; true; false; false] /\
  toy_fit (toy_sp 2 0) d1 = Ok r1 /\ toy_fit (toy_sp 2 0) d2 = Ok r2 /\ ~ nth 0 (sv_w (snd r1)) 0 == nth 0 (sv_w (snd r2)) 0.
Proof.
  exists (toy_data [1; 0; 1; 0]%Z [true; true; false; false] toy_X), (toy_data [1; 0; 1; 0]%Z [true; true; false; false] [[1]; [-(1)]; [2]; [-(3)]]). eexists _, _.
  split; [reflexivity|]. split; [reflexivity|]. split; [intros i [<-|[<-|[]]]; reflexivity|]. split; [reflexivity|]. split; [reflexivity|].
  split; [vm_compute; reflexivity|]. split; [vm_compute; reflexivity|]. vm_compute. discriminate.
Qed.
Print Assumptions C126_cap_refuted.

(* a negative batch size is accepted and nothing is learned *)
Theorem C126_batch_refuted : exists sp d r, (ts_batch sp < 0)%Z /\ (0 < ts_epochs sp)%Z /\ toy_fit sp d = Ok r /\ sv_w (snd r) = [1 # 10] /\ sv_b (snd r) = 0.
Proof. exists (toy_sp (-1) 1), (toy_data [1; 0; 1; 0]%Z [true; true; false; false] toy_X). eexists. split; [reflexivity|]. split; [reflexivity|]. split; [vm_compute; reflexivity|]. split; reflexivity. Qed.
Print Assumptions C126_batch_refuted.

Example C126_case : exists r, (forall idx g, Permutation (fst (toy_perm idx g)) idx) /\ sorts_positions ref_argsortQ /\ exp_ok toy_exp /\
  toy_fit (toy_sp 2 1) (toy_data [1; 0; 1; 0]%Z [true; true; false; false] toy_X) = Ok r /\ fst r = (0, 1)%Z /\ ~ nth 0 (sv_w (snd r)) 0 == 1 # 10 /\
  trainable (toy_data [1; 0; 1; 0]%Z [true; true; false; false] toy_X) [true; true; false; false] 0 1 /\
  (forall x, In x toy_X -> length x = 1%nat) /\ (forall x v, In x toy_X -> In v x -> Qabs v <= 2) /\ 1 * 2 <= ts_l2 (toy_sp 2 1) * 2.
Proof.
  eexists. split; [exact toy_perm_ok|]. split; [exact ref_argsortQ_sorts|]. split; [exact toy_exp_ok|]. split; [vm_compute; reflexivity|]. split; [reflexivity|]. split; [vm_compute; discriminate|].
  split; [|split; [intros x [<-|[<-|[<-|[<-|[]]]]]; reflexivity|split; [intros x v [<-|[<-|[<-|[<-|[]]]]] [<-|[]]; discriminate|discriminate]]].
  split; [reflexivity|]. split; [cbn; intros c e; lia|]. split; [intros e [<-|[]]; cbn; lia|]. split; [reflexivity|]. split; [reflexivity|]. split; [discriminate|]. split; [intros m []|]. split; [now exists 0%nat|].
  left. split; [lia|]. split; [cbn; auto|]. split; [cbn; auto|]. cbn. intros v Hv _. lia.
Qed.
