(* C143, C144: GraFN. *)
From Coq Require Import QArith Qminmax Qabs Lqa ZifyBool ZifyNat.
From Verif Require Import Prelude ListFacts QFacts TransModel TransSpec TransProofs GnnModel GnnSpec GnnProofs GnnTrainProofs GnnProps DeepLossSpec DeepLossProps NgcnSpec GrafnModel GrafnSpec GrafnProofs GrafnFitProofs.
Local Open Scope Q_scope.
Local Open Scope list_scope.
Local Notation length := List.length.

(* ---- C143: what an epoch trains on *)
Section C143.
Variable G : Type.
Variable random : G -> nat -> list Q * G.
Variable choice : G -> list nat -> nat -> bool -> list nat * G.
(* the support: as many different training nodes of every class as the rarest class has, in the order of the classes, with their label rows *)
Theorem C143_support y train classes g s L g' : choice_ok choice -> sample_support G choice y train classes g = Ok (s, L, g') ->
  exists b, (0 < b)%nat /\ (forall c m, (0 <= c < classes)%Z -> labelled_count y train c m -> (b <= m)%nat) /\ (exists c, (0 <= c < classes)%Z /\ labelled_count y train c b) /\
    length s = (b * Z.to_nat classes)%nat /\ NoDup s /\ (forall t, (t < b * Z.to_nat classes)%nat -> labelled y train (Z.of_nat (t / b)) (nth t s O)) /\
    indicates (Z.to_nat classes) (b * Z.to_nat classes) (fun t => t / b)%nat L.
Proof. intros Hc. apply (support_spec G choice Hc). Qed.
(* every class must have a training node *)
Theorem C143_support_returns y train classes g :
  ((exists r, sample_support G choice y train classes g = Ok r) <-> (0 < classes)%Z /\ forall c, (0 <= c < classes)%Z -> exists i, labelled y train c i) /\
  (forall e, sample_support G choice y train classes g = Err e -> e = ValueError).
Proof. split; [apply support_returns|apply support_error]. Qed.
(* a view: the same columns hidden for every node, some of the edges, then loops and symmetric weights; nothing is dropped at rate 0, all columns at rate 1 - and no edge *)
Theorem C143_views rsqrt tiny de df n width X E g : draws_ok random -> same_value rsqrt -> (0 < n)%Z -> lenZ X = n -> (forall r, In r X -> length r = width) ->
  (forall e, In e E -> (0 <= e_src e < n)%Z /\ (0 <= e_dst e < n)%Z) ->
  let v := fst (augmented G random rsqrt tiny de df n width X E g) in
  length (fst v) = length X /\
  (exists hidden : nat -> bool, (forall i, (i < length X)%nat -> nth i (fst v) [] = map (fun c => if hidden c then 0 else nth c (nth i X []) 0) (seq 0 width)) /\
     (df <= 0 -> forall c, hidden c = false) /\ (1 <= df -> forall c, (c < width)%nat -> hidden c = true)) /\
  exists E', part E' E /\ (E <> [] -> E' <> []) /\ (de <= 0 \/ 1 <= de -> E' = E) /\
    forall i j, (i < length X)%nat -> (j < length X)%nat -> weight_from (snd v) i j == takes rsqrt tiny NormSym true (length X) E' i j.
Proof.
  intros Hr Hs Hn HX HW HE v. unfold v, augmented. assert (HF := drop_features_spec G random Hr df width X g HW). cbv zeta in HF. destruct (drop_features G random df width X g) as [X' g1]. cbn [fst] in HF.
  assert (HD := drop_edges_spec G random Hr de E g1). cbv zeta in HD. destruct (drop_edges G random de E g1) as [E' g2]. cbn [fst snd] in *. destruct HF as [HF1 HF2]. destruct HD as (HD1 & HD2 & HD3).
  split; [exact HF1|]. split; [exact HF2|]. exists E'. split; [exact HD1|]. split; [exact HD2|]. split; [exact HD3|]. intros i j Hi Hj. assert (HN : Z.to_nat n = length X) by (unfold lenZ in HX; lia). rewrite <- HN in *.
  apply (prepared_weight rsqrt tiny NormSym true n E' i j); [intros _; exact Hs|exact Hn| |exact Hi|exact Hj]. intros e He. specialize (HE e (part_In _ _ HD1 e He)). lia.
Qed.
End C143.
Section Loss.
Variables softmax unit_row : list Q -> list Q.
Variable cosine : list Q -> list Q -> Q.
Variable cross : list Q -> Z -> Q.
Variable log_pow : Q -> Q -> Q.
Definition log_pow_ok (f : Q -> Q -> Q) : Prop := (forall p p' t t', p == p' -> t == t' -> f p t == f p' t') /\ forall p, f p 0 == 0.
(* the assignment of a row: the share of every class among the supports; the shares are a distribution *)
Theorem C143_neighbours tau k m cls query supports labels i : softmax_ok softmax -> (0 < m)%nat -> length supports = m -> indicates k m cls labels -> (i < length query)%nat ->
  let p := nth i (snn softmax unit_row tau k query supports labels) [] in
  length p = k /\ (forall c, (c < k)%nat -> nth c p 0 == share softmax unit_row tau m cls (nth i query []) (fun t => nth t supports []) c) /\ distribution p.
Proof.
  intros Hs Hm HS HI Hi p. assert (HL : length p = k) by (unfold p, snn; rewrite (nth_map_in _ _ i []) by exact Hi; cbv zeta; now rewrite map_length, seq_length).
  assert (HE : forall c, (c < k)%nat -> nth c p 0 == share softmax unit_row tau m cls (nth i query []) (fun t => nth t supports []) c) by (intros c Hc; now apply snn_entry). split; [exact HL|]. split; [exact HE|].
  destruct (share_distribution softmax unit_row tau m k cls (nth i query []) (fun t => nth t supports []) Hs Hm (fun t Ht => proj1 (proj2 HI t Ht))) as [HN HQ]. split.
  - intros x Hx. apply (In_nth _ _ 0) in Hx as (c & Hc & <-). rewrite HE by lia. apply HN.
  - rewrite (list_as_map p k HL), <- HQ. apply Qsum_ext. intros c Hc. apply in_seq in Hc. apply HE. lia.
Qed.
(* small shares of a pseudo-target are removed, which costs at most a ten-thousandth for each class *)
Theorem C143_targets tau k m cls query supports labels i y train : softmax_ok softmax -> (0 < m)%nat -> length supports = m -> indicates k m cls labels -> (i < length query)%nat -> nth i train false = false ->
  let t := target_row k y train (snn softmax unit_row tau k query supports labels) i in
  length t = k /\ 1 - inject_Z (Z.of_nat k) * (1 # 10000) <= Qsum t <= 1 /\ forall c, (c < k)%nat -> nth c t 0 == 0 \/ 1 # 10000 <= nth c t 0.
Proof.
  intros Hs Hm HS HI Hi Ht t. destruct (C143_neighbours tau k m cls query supports labels i Hs Hm HS HI Hi) as (HL & _ & HN & HQ). unfold t, target_row. rewrite Ht. set (p := nth i (snn softmax unit_row tau k query supports labels) []) in *.
  split; [now rewrite map_length|]. split.
  - assert (E1 : Qsum p == Qsum (map (fun c => nth c p 0) (seq 0 k))) by (rewrite <- (list_as_map p k HL); reflexivity).
    assert (E2 : Qsum (map (fun x => if Qltb x (1 # 10000) then 0 else x) p) == Qsum (map (fun c => if Qltb (nth c p 0) (1 # 10000) then 0 else nth c p 0) (seq 0 k))) by (rewrite (list_as_map p k HL) at 1; rewrite map_map; reflexivity).
    assert (HB : forall c, In c (seq 0 k) -> nth c p 0 - (1 # 10000) <= (if Qltb (nth c p 0) (1 # 10000) then 0 else nth c p 0) <= nth c p 0).
    { intros c Hc. apply in_seq in Hc. assert (H0 : 0 <= nth c p 0) by (apply HN, nth_In; lia). destruct (Qltb (nth c p 0) (1 # 10000)) eqn:E; [apply Qltb_true in E; lra|lra]. }
    assert (H1 := Qsum_le (fun c => nth c p 0 - (1 # 10000)) (fun c => if Qltb (nth c p 0) (1 # 10000) then 0 else nth c p 0) (seq 0 k) (fun c Hc => proj1 (HB c Hc))).
    assert (H2 := Qsum_le (fun c => if Qltb (nth c p 0) (1 # 10000) then 0 else nth c p 0) (fun c => nth c p 0) (seq 0 k) (fun c Hc => proj2 (HB c Hc))).
    rewrite (Qsum_minus (fun c => nth c p 0) (fun _ => 1 # 10000)), Qsum_const in H1. unfold lenZ in H1. rewrite seq_length in H1. rewrite <- E1 in H1, H2. rewrite <- E2 in H1, H2. rewrite HQ in H1, H2. split; [exact H1|exact H2].
  - intros c Hc. rewrite (nth_map_in _ _ c 0) by lia. destruct (Qltb (nth c p 0) (1 # 10000)) eqn:E; [left; reflexivity|right; now apply Qltb_false].
Qed.
Lemma map_combine_seq (f : Q * Q -> Q) k : forall a b, length a = k -> length b = k -> map f (combine a b) = map (fun c => f (nth c a 0, nth c b 0)) (seq 0 k).
Proof using Type.
  induction k as [|k IH]; intros [|x a] [|z b] Ha Hb; try discriminate; [reflexivity|]. cbn [combine map seq nth]. f_equal. rewrite <- seq_shift, map_map. cbn [nth]. apply IH; [now injection Ha|now injection Hb].
Qed.
(* the loss: half the cross entropies of both views on the training nodes, the assignments of the strong view against those of the weak view on the confident and the training nodes, and the distance of both views *)
Theorem C143_loss tau thres lam_c lam_n k m cls y train ob anchor_rep pos_rep anchor_logits pos_logits T I : softmax_ok softmax -> log_pow_ok log_pow ->
  (0 < k)%nat -> (0 < m)%nat -> length (ob_support ob) = m -> indicates k m cls (ob_labels ob) -> length anchor_rep = length y -> length pos_rep = length y ->
  (forall i, (i < length y)%nat -> nth i train false = true -> (0 <= nth i y (-1) < Z.of_nat k)%Z) ->
  listed T (fun i => (i < length y)%nat /\ nth i train false = true) ->
  listed I (fun i => (i < length y)%nat /\ (nth i train false = true \/ exists c, (c < k)%nat /\ thres < assigned softmax unit_row tau m cls (ob_support ob) pos_rep i c)) ->
  epoch_loss softmax unit_row cosine cross log_pow tau thres lam_c lam_n k y train ob anchor_rep pos_rep anchor_logits pos_logits ==
    loss_formula softmax unit_row cosine cross log_pow tau lam_c lam_n k m cls y train (ob_support ob) anchor_rep pos_rep anchor_logits pos_logits T I.
Proof.
  intros Hs [Hl Hl0] Hk Hm HS HI HA HP HY [HT1 HT2] [HI1 HI2]. unfold epoch_loss, loss_formula. cbv zeta.
  set (support := fun (z : mat) t => nth (nth t (ob_support ob) O) z []). set (prob := assigned softmax unit_row tau m cls (ob_support ob) anchor_rep). set (target := assigned softmax unit_row tau m cls (ob_support ob) pos_rep) in *.
  set (rows := fun z : mat => map (fun i => nth i z []) (ob_support ob)). set (P := snn softmax unit_row tau k anchor_rep (rows anchor_rep) (ob_labels ob)). set (Tg := snn softmax unit_row tau k pos_rep (rows pos_rep) (ob_labels ob)).
  assert (HR : forall z, length (rows z) = m) by (intros z; unfold rows; now rewrite map_length). assert (Hrow : forall z t, (t < m)%nat -> nth t (rows z) [] = support z t) by (intros z t Ht; unfold rows, support; now rewrite (nth_map_in _ _ t O) by lia).
  assert (HSh : forall z row c, share softmax unit_row tau m cls row (fun t => nth t (rows z) []) c = share softmax unit_row tau m cls row (support z) c).
  { intros z row c. unfold share. cbv zeta. replace (map (fun t => dot (unit_row row) (unit_row (nth t (rows z) [])) / tau) (seq 0 m)) with (map (fun t => dot (unit_row row) (unit_row (support z t)) / tau) (seq 0 m)); [reflexivity|]. apply map_ext_in. intros t Ht. apply in_seq in Ht. now rewrite Hrow by lia. }
  assert (HPe : forall i c, (i < length y)%nat -> (c < k)%nat -> nth c (nth i P []) 0 == prob i c). { intros i c Hi Hc. unfold P. rewrite (snn_entry softmax unit_row tau k anchor_rep (rows anchor_rep) (ob_labels ob) m cls i c Hs (HR _) HI ltac:(lia) Hc), HSh. reflexivity. }
  assert (HTe : forall i c, (i < length y)%nat -> (c < k)%nat -> nth c (nth i Tg []) 0 == target i c). { intros i c Hi Hc. unfold Tg. rewrite (snn_entry softmax unit_row tau k pos_rep (rows pos_rep) (ob_labels ob) m cls i c Hs (HR _) HI ltac:(lia) Hc), HSh. reflexivity. }
  assert (LP : forall i, (i < length y)%nat -> length (nth i P []) = k) by (intros i Hi; unfold P, snn; rewrite (nth_map_in _ _ i []) by lia; cbv zeta; now rewrite map_length, seq_length).
  assert (LT : forall i, (i < length y)%nat -> length (nth i Tg []) = k) by (intros i Hi; unfold Tg, snn; rewrite (nth_map_in _ _ i []) by lia; cbv zeta; now rewrite map_length, seq_length).
  assert (LTg : length Tg = length y) by (unfold Tg, snn; now rewrite map_length).
  assert (HInc : Permutation (included thres train Tg) I).
  { apply NoDup_Permutation; [apply NoDup_filter, seq_NoDup|exact HI1|]. intros i. rewrite (included_In thres train Tg k i Hk) by (intros r Hr; apply (In_nth _ _ []) in Hr as (j & Hj & <-); apply LT; lia). rewrite HI2, LTg.
    split; intros [Hi [H|(c & Hc & H)]]; (split; [exact Hi|]); try (now left); right; exists c; (split; [exact Hc|]); assert (HH := HTe i c Hi Hc); lra. }
  assert (HTr : Permutation (filter (fun i => nth i train false) (seq 0 (length y))) T). { apply NoDup_Permutation; [apply NoDup_filter, seq_NoDup|exact HT1|]. intros i. rewrite filter_In, in_seq, HT2. split; intros [H1 H2]; (split; [lia|exact H2]). }
  assert (HCe : forall z, Qmean (map (fun i => cross (nth i z []) (nth i y (-1)%Z)) (filter (fun i => nth i train false) (seq 0 (length y)))) == mean_over T (fun i => cross (nth i z []) (nth i y (-1)%Z))).
  { intros z. rewrite (Qmean_perm _ _ (Permutation_map _ HTr)). unfold Qmean, mean_over, lenZ. now rewrite map_length. }
  rewrite (HCe anchor_logits), (HCe pos_logits).
  assert (HCos : Qmean (map (fun p : list Q * list Q => cosine (fst p) (snd p)) (combine anchor_rep pos_rep)) == mean_over (seq 0 (length y)) (fun i => cosine (nth i anchor_rep []) (nth i pos_rep []))).
  { assert (HC : map (fun p : list Q * list Q => cosine (fst p) (snd p)) (combine anchor_rep pos_rep) = map (fun i => cosine (nth i anchor_rep []) (nth i pos_rep [])) (seq 0 (length y))).
    { clear -HA HP. revert anchor_rep pos_rep HA HP. induction (length y) as [|q IH]; intros [|a A] [|b B] H1 H2; try discriminate; [reflexivity|]. cbn [combine map seq nth fst snd]. f_equal. rewrite <- seq_shift, map_map. cbn [nth]. apply IH; [now injection H1|now injection H2]. }
    rewrite HC. unfold Qmean, mean_over, lenZ. now rewrite map_length. }
  rewrite HCos. set (F := fun i => if nth i train false then log_pow (prob i (Z.to_nat (nth i y (-1)%Z))) 1 else Qsum (map (fun c => if Qlt_le_dec (target i c) (1 # 10000) then 0 else log_pow (prob i c) (target i c)) (seq 0 k))).
  assert (HCons : Qmean (map (fun i => Qsum (map (fun p : Q * Q => log_pow (fst p) (snd p)) (combine (nth i P []) (target_row k y train Tg i)))) (included thres train Tg)) == mean_over I F).
  { rewrite (Qmean_perm _ _ (Permutation_map _ HInc)). transitivity (Qmean (map F I)); [|unfold Qmean, mean_over, lenZ; now rewrite map_length]. apply Qmean_ext. intros i Hi. apply HI2 in Hi as [Hi _]. unfold F, target_row. destruct (nth i train false) eqn:Et.
    - rewrite (map_combine_seq _ k) by (try apply LP; try exact Hi; unfold onehot_row; now rewrite map_length, seq_length). cbn [fst snd]. specialize (HY i Hi Et). set (v := Z.to_nat (nth i y (-1)%Z)).
      rewrite <- (TransSolveProofs.sum_pick (fun c => log_pow (prob i c) 1) v (seq 0 k)) by (try apply seq_NoDup; apply in_seq; lia). apply Qsum_ext. intros c Hc. apply in_seq in Hc. unfold onehot_row. rewrite (nth_map_in _ _ c O) by (rewrite seq_length; lia). rewrite seq_nth by lia. cbn [Nat.add].
      destruct (Nat.eqb_spec c v) as [->|Hcv].
      + replace (nth i y (-1) =? Z.of_nat v)%Z with true by lia. rewrite (Hl _ (prob i v) 1 1); [ring|apply HPe; lia|reflexivity].
      + replace (nth i y (-1) =? Z.of_nat c)%Z with false by lia. rewrite Hl0. ring.
    - rewrite (map_combine_seq _ k) by (rewrite ?map_length; first [now apply LP|now apply LT]). cbn [fst snd]. apply Qsum_ext. intros c Hc. apply in_seq in Hc. rewrite (nth_map_in _ _ c 0) by (rewrite LT; lia). assert (HH := HTe i c Hi ltac:(lia)).
      destruct (Qltb (nth c (nth i Tg []) 0) (1 # 10000)) eqn:E; destruct (Qlt_le_dec (target i c) (1 # 10000)) as [Hlt|Hle]; [apply Hl0|apply Qltb_true in E; exfalso; lra|apply Qltb_false in E; exfalso; lra|]. apply Hl; [apply HPe; lia|exact HH]. }
  apply Qplus_comp; [apply Qplus_comp; [field|apply Qmult_comp; [reflexivity|exact HCons]]|reflexivity].
Qed.
End Loss.

(* ---- C144: fit and predict *)
Section C144.
Variables W Op G T : Type.
Variable random : G -> nat -> list Q * G.
Variable choice : G -> list nat -> nat -> bool -> list nat * G.
Variable integers : G -> Z * G.
Variable default_rng : Z -> G.
Variable torch_seeded : Z -> T.
Variable rsqrt : Q -> Q.
Variable tiny : Q.
Variable init : nat -> Z -> T -> W.
Variable opt : W -> Op.
Variable step : (W -> Q) -> W -> Op -> W * Op.
Variable encode : W -> view -> mat.
Variable head : W -> list Q -> list Q.
Variable encode_eval : W -> view -> mat.
Variable argmax : list Q -> Z.
Variables softmax unit_row : list Q -> list Q.
Variable cosine : list Q -> list Q -> Q.
Variable cross : list Q -> Z -> Q.
Variable log_pow : Q -> Q -> Q.
Notation fit := (grafn_fit W Op G T random choice integers default_rng torch_seeded rsqrt tiny init opt step encode head encode_eval argmax softmax unit_row cosine cross log_pow).
Notation predict := (grafn_predict W rsqrt tiny head encode_eval softmax).
Notation draws_of := (epoch_objective G random choice integers default_rng rsqrt tiny).
Notation the_loss := (loss_of W encode head softmax unit_row cosine cross log_pow).
Notation the_loop := (epochs W Op G random choice integers default_rng rsqrt tiny step encode head encode_eval argmax softmax unit_row cosine cross log_pow).
Notation fresh d seed := (init (nd_width d) (count_classes (nd_y d)) (torch_seeded seed)).

(* settings and data that reach the training loop *)
Definition loop_reached (sp : grafn_spec) (d : node_data) : Prop :=
  0 < gf_tau sp /\ 0 <= gf_thres sp <= 1 /\ usable d /\ (exists m i, nd_train d = Some m /\ nth i m false = true) /\ gf_layers sp <> O.
(* every class that occurs has a training node, and training nodes have a class *)
Definition trainable (d : node_data) : Prop :=
  forall m, nd_train d = Some m -> (forall i, (i < length (nd_y d))%nat -> nth i m false = true -> (0 <= nth i (nd_y d) (-1))%Z) /\ (forall v, In v (nd_y d) -> (0 <= v)%Z -> exists i, labelled (nd_y d) m v i).
Lemma fit_cases sp seed d obj : 
  (loop_reached sp d /\ exists train, nd_train d = Some train /\
     let p := prepared_of rsqrt tiny d true NormSym train in
     let r := the_loop sp (nd_y d) train (nd_val d) (count_classes (nd_y d)) (lenZ (nd_X d)) (nd_width d) (nd_X d) (weighted d) (nd_X d, pp_E p) (Z.to_nat (gf_max_epochs sp)) (fresh d seed) (opt (fresh d seed)) (default_rng seed) None 0 in
     fit sp seed d obj = ({| go_model := Some (fst r); go_edges := Some (pp_E p); go_n := Some (lenZ (nd_X d)) |}, snd r)) \/
  (~ loop_reached sp d /\ exists e, snd (fit sp seed d obj) = Err e /\ go_model W (fst (fit sp seed d obj)) = go_model W obj).
Proof.
  unfold grafn_fit, loop_reached. destruct (Qle_bool (gf_tau sp) 0) eqn:E1; [right; apply Qle_bool_iff in E1; split; [intros (H & _); lra|eexists; split; reflexivity]|].
  assert (H1 : 0 < gf_tau sp) by (apply Qnot_le_lt; intros H; apply Qle_bool_iff in H; congruence).
  destruct (Qle_bool 0 (gf_thres sp) && Qle_bool (gf_thres sp) 1) eqn:E2; cbn [negb].
  2:{ right. split; [intros (_ & [Ha Hb] & _); apply Qle_bool_iff in Ha; apply Qle_bool_iff in Hb; rewrite Ha, Hb in E2; discriminate|eexists; split; reflexivity]. }
  apply andb_true_iff in E2 as [Ha Hb]. apply Qle_bool_iff in Ha. apply Qle_bool_iff in Hb.
  destruct (prepare_data rsqrt tiny d true NormSym) as [p|e] eqn:Ep.
  2:{ right. split; [intros (_ & _ & Hu & _); apply (C104_returns rsqrt tiny d true NormSym) in Hu as [p Hp]; congruence|eexists; split; reflexivity]. }
  apply prepare_ok in Ep as (Hu & train & Ht & ->). unfold prepared_of. cbn [pp_train pp_E pp_n pp_classes pp_y pp_val pp_X].
  destruct (existsb (fun b => b) train) eqn:E3; cbn [negb].
  2:{ right. split; [|eexists; split; reflexivity]. intros (_ & _ & _ & (m & i & Hm & Hi) & _). rewrite Ht in Hm. injection Hm as <-. enough (existsb (fun b => b) train = true) by congruence. apply exists_nth. now exists i. }
  destruct (Nat.eqb_spec (gf_layers sp) 0) as [E4|E4]; [right; split; [intros (_ & _ & _ & _ & H); contradiction|eexists; split; reflexivity]|].
  left. split; [split; [exact H1|]; split; [now split|]; split; [exact Hu|]; split; [apply exists_nth in E3 as [i Hi]; now exists train, i|exact E4]|]. exists train. split; [exact Ht|]. cbv zeta. fold (weighted d).
  match goal with |- (let '(_, _) := ?x in _) = _ => destruct x as [w r] end. reflexivity.
Qed.
Lemma trainable_loop d train : usable d -> nd_train d = Some train -> (exists i, nth i train false = true) ->
  (trainable d <-> bad_label (nd_y d) train (count_classes (nd_y d)) = false /\ (0 < count_classes (nd_y d))%Z /\ forall c, (0 <= c < count_classes (nd_y d))%Z -> exists i, labelled (nd_y d) train c i).
Proof.
  intros (HX & HC & _ & _ & HM & _) Ht (i0 & Hi0). set (y := nd_y d) in *.
  assert (Hl : (i0 < length y)%nat) by (destruct (Nat.lt_ge_cases i0 (length y)) as [H|H]; [exact H|]; rewrite nth_overflow in Hi0; [discriminate|]; rewrite (HM train (or_introl Ht)); lia).
  assert (HB : bad_label y train (count_classes y) = false <-> forall i, (i < length y)%nat -> nth i train false = true -> (0 <= nth i y (-1))%Z).
  { unfold bad_label. split.
    - intros H i Hi Hti. destruct (Z.le_gt_cases 0 (nth i y (-1)%Z)) as [Hp|Hp]; [exact Hp|]. exfalso. enough (existsb (fun i => nth i train false && negb ((0 <=? nth i y (-1))%Z && (nth i y (-1) <? count_classes y)%Z)) (seq 0 (length y)) = true) by congruence. apply existsb_exists. exists i. split; [apply in_seq; lia|]. rewrite Hti. cbn [andb]. lia.
    - intros H. destruct (existsb _ _) eqn:Ex; [|reflexivity]. exfalso. apply existsb_exists in Ex as (i & Hi & Hx). apply in_seq in Hi. apply andb_true_iff in Hx as [Hti Hx]. specialize (H i ltac:(lia) Hti). assert (HH := count_classes_bound y (nth i y (-1)%Z) ltac:(apply nth_In; lia)). lia. }
  rewrite HB. unfold trainable. fold y. clearbody y. split.
  - intros H. destruct (H train Ht) as [H1 H2]. split; [exact H1|]. specialize (H1 i0 Hl Hi0). assert (HH := count_classes_bound y (nth i0 y (-1)%Z) ltac:(apply nth_In; lia)). split; [lia|]. intros c Hc. apply H2; [|lia]. apply (HC (count_classes y - 1)%Z c); [|lia].
    destruct y as [|a r] eqn:Ey; [cbn in Hl; lia|]. cbn [count_classes]. replace (fold_right Z.max a r + 1 - 1)%Z with (fold_right Z.max a r) by lia. clear. induction r as [|b r IH]; [now left|]. cbn [fold_right]. destruct (Z.max_spec b (fold_right Z.max a r)) as [[_ ->]|[_ ->]]; [destruct IH as [IH|IH]; [now left|right; now right]|right; now left].
  - intros (H1 & H2 & H3) m Hm. rewrite Ht in Hm. injection Hm as <-. split; [exact H1|]. intros v Hv Hv0. apply H3. assert (HH := count_classes_bound y v Hv). lia.
Qed.
(* a fit returns exactly when the settings and the data are fine; without epochs the classes are not looked at *)
Theorem C144_returns sp seed d obj : snd (fit sp seed d obj) = Ok tt <-> loop_reached sp d /\ ((0 < gf_max_epochs sp)%Z -> trainable d).
Proof.
  destruct (fit_cases sp seed d obj) as [[HL (train & Ht & HE)]|[HN (e & He & _)]]; [|rewrite He; split; [discriminate|intros [H _]; contradiction]]. cbv zeta in HE. rewrite HE. cbn [snd].
  assert (HL' := HL). destruct HL' as (_ & _ & Hu & (m & i & Hm & Hi) & _). rewrite Ht in Hm. injection Hm as <-. assert (HT := trainable_loop d train Hu Ht (ex_intro _ i Hi)).
  destruct (Z.to_nat (gf_max_epochs sp)) as [|fuel] eqn:Ef; [cbn [epochs snd]; split; [intros _; split; [exact HL|lia]|reflexivity]|].
  set (dr := draws_of sp (nd_y d) train (count_classes (nd_y d)) (lenZ (nd_X d)) (nd_width d) (nd_X d) (weighted d)).
  destruct (bad_label (nd_y d) train (count_classes (nd_y d))) eqn:EB.
  { match goal with |- snd (the_loop _ _ _ ?val ?c ?n ?wd ?X ?E ?base (S ?f) ?w ?o ?g ?b ?bd) = _ <-> _ => destruct (loop_fails W Op G random choice integers default_rng rsqrt tiny step encode head encode_eval argmax softmax unit_row cosine cross log_pow sp (nd_y d) train c n wd X E base val f w o g b bd (or_intror EB)) as (e & _ & ->) end.
    cbn [snd]. split; [discriminate|]. intros [_ H]. destruct (proj1 HT (H ltac:(lia))) as [H' _]. discriminate. }
  destruct (dr (default_rng seed)) as [r|e] eqn:ED.
  - assert (HA : (0 < count_classes (nd_y d))%Z /\ forall c, (0 <= c < count_classes (nd_y d))%Z -> exists i, labelled (nd_y d) train c i) by (apply (draws_returns G random choice integers default_rng rsqrt tiny sp (nd_y d) train (count_classes (nd_y d)) (lenZ (nd_X d)) (nd_width d) (nd_X d) (weighted d) (default_rng seed)); now exists r).
    assert (HD : forall g, exists r, dr g = Ok r) by (intros g; apply draws_returns; exact HA). split; [intros _; split; [exact HL|intros _; apply HT; split; [reflexivity|exact HA]]|]. intros _.
    destruct (nd_val d) as [m|] eqn:Ev; [destruct (existsb (fun b => b) m) eqn:Em|].
    + destruct (loop_validated W Op G random choice integers default_rng rsqrt tiny step encode head encode_eval argmax softmax unit_row cosine cross log_pow sp (nd_y d) train (count_classes (nd_y d)) (lenZ (nd_X d)) (nd_width d) (nd_X d) (weighted d) (nd_X d, pp_E (prepared_of rsqrt tiny d true NormSym train)) (fresh d seed) (opt (fresh d seed)) (default_rng seed) m Em EB HD (S fuel) [] (opt (fresh d seed)) (default_rng seed) None 0%Z
        (run_start _ _ _ _ _ _) (or_introl (conj eq_refl eq_refl)) ltac:(cbn; lia)) as (ws & o & g & b & _ & _ & _ & HH). cbn [last] in HH. rewrite HH. reflexivity.
    + destruct (loop_plain W Op G random choice integers default_rng rsqrt tiny step encode head encode_eval argmax softmax unit_row cosine cross log_pow sp (nd_y d) train (count_classes (nd_y d)) (lenZ (nd_X d)) (nd_width d) (nd_X d) (weighted d) (nd_X d, pp_E (prepared_of rsqrt tiny d true NormSym train)) (fresh d seed) (opt (fresh d seed)) (default_rng seed) (Some m) (or_intror (ex_intro _ m (conj eq_refl Em))) EB HD (S fuel) [] _ _ (run_start _ _ _ _ _ _)) as (ws & o & g & _ & _ & HH). cbn [last] in HH. rewrite HH. reflexivity.
    + destruct (loop_plain W Op G random choice integers default_rng rsqrt tiny step encode head encode_eval argmax softmax unit_row cosine cross log_pow sp (nd_y d) train (count_classes (nd_y d)) (lenZ (nd_X d)) (nd_width d) (nd_X d) (weighted d) (nd_X d, pp_E (prepared_of rsqrt tiny d true NormSym train)) (fresh d seed) (opt (fresh d seed)) (default_rng seed) None (or_introl eq_refl) EB HD (S fuel) [] _ _ (run_start _ _ _ _ _ _)) as (ws & o & g & _ & _ & HH). cbn [last] in HH. rewrite HH. reflexivity.
  - match goal with |- snd (the_loop _ _ _ ?val ?c ?n ?wd ?X ?E ?base (S ?f) ?w ?o ?g ?b ?bd) = _ <-> _ => destruct (loop_fails W Op G random choice integers default_rng rsqrt tiny step encode head encode_eval argmax softmax unit_row cosine cross log_pow sp (nd_y d) train c n wd X E base val f w o g b bd (or_introl (ex_intro _ e ED))) as (e' & _ & ->) end.
    cbn [snd]. split; [discriminate|]. intros [_ H]. destruct (proj1 HT (H ltac:(lia))) as [_ H']. apply (draws_returns G random choice integers default_rng rsqrt tiny sp (nd_y d) train (count_classes (nd_y d)) (lenZ (nd_X d)) (nd_width d) (nd_X d) (weighted d) (default_rng seed)) in H' as [r Hr]. fold dr in Hr. congruence.
Qed.
(* a fit steps once per epoch on the loss of that epoch, from the initial weights; without validation nodes the last weights are kept, with them those of the first epoch with the highest accuracy *)
Theorem C144_training sp seed d obj obj' : fit sp seed d obj = (obj', Ok tt) ->
  exists train ws o g, nd_train d = Some train /\
    run (draws_of sp (nd_y d) train (count_classes (nd_y d)) (lenZ (nd_X d)) (nd_width d) (nd_X d) (weighted d)) (the_loss sp (nd_y d) train (count_classes (nd_y d))) step
      (fresh d seed) (opt (fresh d seed)) (default_rng seed) ws o g /\
    go_n W obj' = Some (lenZ (nd_X d)) /\ go_edges W obj' = Some (pp_E (prepared_of rsqrt tiny d true NormSym train)) /\
    ((forall m, ~ validated (nd_val d) m) -> length ws = Z.to_nat (gf_max_epochs sp) /\ go_model W obj' = Some (last ws (fresh d seed))) /\
    (forall m, validated (nd_val d) m -> (gf_max_epochs sp <= 0)%Z -> ws = [] /\ go_model W obj' = Some (fresh d seed)) /\
    (forall m, validated (nd_val d) m -> (0 < gf_max_epochs sp)%Z ->
       let acc e := accuracy W head encode_eval argmax (nd_y d) m (nd_X d, pp_E (prepared_of rsqrt tiny d true NormSym train)) (nth e ws (fresh d seed)) in
       stops acc (gf_patience sp) (gf_max_epochs sp) (length ws) /\ exists b, first_best acc (length ws - 1) b /\ go_model W obj' = Some (nth b ws (fresh d seed))).
Proof.
  intros HF. assert (HR : snd (fit sp seed d obj) = Ok tt) by (rewrite HF; reflexivity). apply C144_returns in HR as [HL HT].
  destruct (fit_cases sp seed d obj) as [[_ (train & Ht & HE)]|[HN _]]; [|contradiction]. cbv zeta in HE. rewrite HF in HE. pose proof (f_equal fst HE) as HE1. change (obj' = fst (let r := the_loop sp (nd_y d) train (nd_val d) (count_classes (nd_y d)) (lenZ (nd_X d)) (nd_width d) (nd_X d) (weighted d) (nd_X d, pp_E (prepared_of rsqrt tiny d true NormSym train)) (Z.to_nat (gf_max_epochs sp)) (fresh d seed) (opt (fresh d seed)) (default_rng seed) None 0 in ({| go_model := Some (fst r); go_edges := Some (pp_E (prepared_of rsqrt tiny d true NormSym train)); go_n := Some (lenZ (nd_X d)) |}, snd r))) in HE1. cbv zeta in HE1. cbn [fst] in HE1. clear HE. exists train. rewrite HE1. cbn [go_model go_edges go_n]. clear HF HE1 obj'.
  assert (HL' := HL). destruct HL' as (_ & _ & Hu & (m0 & i & Hm & Hi) & _). rewrite Ht in Hm. injection Hm as <-. assert (HTL := trainable_loop d train Hu Ht (ex_intro _ i Hi)).
  destruct (Z.to_nat (gf_max_epochs sp)) as [|fuel] eqn:Ef.
  { exists [], (opt (fresh d seed)), (default_rng seed). split; [exact Ht|]. split; [constructor|]. split; [reflexivity|]. split; [reflexivity|]. cbn [epochs fst last length]. split; [intros _; now split|]. split; [intros m _ _; now split|]. intros m _ H. lia. }
  destruct (proj1 HTL (HT ltac:(lia))) as (EB & HA).
  assert (HD : forall g, exists r, draws_of sp (nd_y d) train (count_classes (nd_y d)) (lenZ (nd_X d)) (nd_width d) (nd_X d) (weighted d) g = Ok r) by (intros g; apply draws_returns; exact HA).
  destruct (nd_val d) as [m|] eqn:Ev; [destruct (existsb (fun b => b) m) eqn:Em|].
  - destruct (loop_validated W Op G random choice integers default_rng rsqrt tiny step encode head encode_eval argmax softmax unit_row cosine cross log_pow sp (nd_y d) train (count_classes (nd_y d)) (lenZ (nd_X d)) (nd_width d) (nd_X d) (weighted d) (nd_X d, pp_E (prepared_of rsqrt tiny d true NormSym train)) (fresh d seed) (opt (fresh d seed)) (default_rng seed) m Em EB HD (S fuel) [] (opt (fresh d seed)) (default_rng seed) None 0%Z
        (run_start _ _ _ _ _ _) (or_introl (conj eq_refl eq_refl)) ltac:(cbn; lia)) as (ws & o & g & b & Hrun & Hst & Hfb & HH). cbn [last] in HH. rewrite HH. exists ws, o, g. split; [exact Ht|]. split; [exact Hrun|]. split; [reflexivity|]. split; [reflexivity|].
    assert (HV : exists k, nth k m false = true) by now apply exists_nth.
    split; [intros Hno; exfalso; apply (Hno m); now split|]. split; [intros m' _ Hz; lia|]. intros m' [Hm' _] Hz. injection Hm' as <-. cbv beta zeta in *. split; [replace (gf_max_epochs sp) with (Z.of_nat (length (@nil W) + S fuel)) by (cbn [length]; lia); exact Hst|]. exists b. split; [exact Hfb|reflexivity].
  - destruct (loop_plain W Op G random choice integers default_rng rsqrt tiny step encode head encode_eval argmax softmax unit_row cosine cross log_pow sp (nd_y d) train (count_classes (nd_y d)) (lenZ (nd_X d)) (nd_width d) (nd_X d) (weighted d) (nd_X d, pp_E (prepared_of rsqrt tiny d true NormSym train)) (fresh d seed) (opt (fresh d seed)) (default_rng seed) (Some m) (or_intror (ex_intro _ m (conj eq_refl Em))) EB HD (S fuel) [] _ _ (run_start _ _ _ _ _ _)) as (ws & o & g & Hrun & Hl & HH). cbn [last] in HH. rewrite HH. exists ws, o, g.
    split; [exact Ht|]. split; [exact Hrun|]. split; [reflexivity|]. split; [reflexivity|]. assert (HV : forall m', ~ validated (Some m) m') by (intros m' [Hm' Hv]; injection Hm' as <-; apply exists_nth in Hv; congruence).
    split; [intros _; split; [exact Hl|reflexivity]|]. split; intros m' Hm'; exfalso; exact (HV m' Hm').
  - destruct (loop_plain W Op G random choice integers default_rng rsqrt tiny step encode head encode_eval argmax softmax unit_row cosine cross log_pow sp (nd_y d) train (count_classes (nd_y d)) (lenZ (nd_X d)) (nd_width d) (nd_X d) (weighted d) (nd_X d, pp_E (prepared_of rsqrt tiny d true NormSym train)) (fresh d seed) (opt (fresh d seed)) (default_rng seed) None (or_introl eq_refl) EB HD (S fuel) [] _ _ (run_start _ _ _ _ _ _)) as (ws & o & g & Hrun & Hl & HH). cbn [last] in HH. rewrite HH. exists ws, o, g.
    split; [exact Ht|]. split; [exact Hrun|]. split; [reflexivity|]. split; [reflexivity|]. split; [intros _; split; [exact Hl|reflexivity]|]. split; intros m' [Hm' _]; discriminate.
Qed.
(* the accuracy is the share of the validation nodes whose largest logit is their label *)
Theorem C144_accuracy y m base w l : NoDup l -> (forall i, In i l <-> (i < length y)%nat /\ nth i m false = true) -> length (encode_eval w base) = length y ->
  accuracy W head encode_eval argmax y m base w == mean_over l (fun i => if (argmax (head w (nth i (encode_eval w base) [])) =? nth i y (-1))%Z then 1 else 0).
Proof.
  intros Hnd Hl HE. unfold accuracy, mean_over, Qmean. set (rows := filter (fun i => nth i m false) (seq 0 (length y))).
  assert (HP : Permutation.Permutation rows l) by (apply Permutation.NoDup_Permutation; [apply NoDup_filter, seq_NoDup|exact Hnd|]; intros i; unfold rows; rewrite filter_In, in_seq, Hl; split; [intros [H1 H2]; split; [lia|exact H2]|intros [H1 H2]; split; [lia|exact H2]]).
  unfold lenZ. rewrite map_length, (Permutation.Permutation_length HP). apply Qmult_comp; [|reflexivity].
  rewrite (Qsum_ext (fun i => if (nth i (map (fun z => argmax (head w z)) (encode_eval w base)) (-1) =? nth i y (-1))%Z then 1 else 0) (fun i => if (argmax (head w (nth i (encode_eval w base) [])) =? nth i y (-1))%Z then 1 else 0)).
  - apply Qsum_perm. apply Permutation.Permutation_map. exact HP.
  - intros i Hi. unfold rows in Hi. apply filter_In in Hi as [Hi _]. apply in_seq in Hi. rewrite (nth_map_in (fun z => argmax (head w z)) (encode_eval w base) i [] (-1)%Z) by lia. reflexivity.
Qed.
(* a fit that raises before the training keeps the model; one that raises in the training leaves the fresh weights in place, on the new graph *)
Theorem C144_failed sp seed d obj obj' e : fit sp seed d obj = (obj', Err e) ->
  (~ loop_reached sp d /\ go_model W obj' = go_model W obj) \/
  (loop_reached sp d /\ ~ trainable d /\ (0 < gf_max_epochs sp)%Z /\ go_model W obj' = Some (fresh d seed) /\ go_n W obj' = Some (lenZ (nd_X d)) /\ exists E, go_edges W obj' = Some E).
Proof.
  intros HF. assert (HR : snd (fit sp seed d obj) <> Ok tt) by (rewrite HF; discriminate).
  destruct (fit_cases sp seed d obj) as [[HL (train & Ht & HE)]|[HN (e' & _ & He)]]; [|left; split; [exact HN|rewrite HF in He; exact He]]. right. split; [exact HL|].
  assert (HT : ~ trainable d) by (intros HT; apply HR; apply C144_returns; now split). split; [exact HT|].
  assert (Hm : (0 < gf_max_epochs sp)%Z) by (destruct (Z.lt_ge_cases 0 (gf_max_epochs sp)) as [H|H]; [exact H|]; exfalso; apply HR; apply C144_returns; split; [exact HL|lia]). split; [exact Hm|].
  cbv zeta in HE. rewrite HF in HE. injection HE as -> _. cbn [go_model go_n go_edges].
  assert (HL' := HL). destruct HL' as (_ & _ & Hu & (m0 & i & Hm0 & Hi) & _). rewrite Ht in Hm0. injection Hm0 as <-. assert (HTL := trainable_loop d train Hu Ht (ex_intro _ i Hi)).
  destruct (Z.to_nat (gf_max_epochs sp)) as [|fuel] eqn:Ef; [lia|].
  assert (HB : (exists e, draws_of sp (nd_y d) train (count_classes (nd_y d)) (lenZ (nd_X d)) (nd_width d) (nd_X d) (weighted d) (default_rng seed) = Err e) \/ bad_label (nd_y d) train (count_classes (nd_y d)) = true).
  { destruct (bad_label (nd_y d) train (count_classes (nd_y d))) eqn:EB; [now right|]. left. destruct (draws_of sp (nd_y d) train (count_classes (nd_y d)) (lenZ (nd_X d)) (nd_width d) (nd_X d) (weighted d) (default_rng seed)) as [r|e'] eqn:ED; [|now exists e']. exfalso. apply HT, HTL. split; [reflexivity|]. apply (draws_returns G random choice integers default_rng rsqrt tiny sp (nd_y d) train (count_classes (nd_y d)) (lenZ (nd_X d)) (nd_width d) (nd_X d) (weighted d) (default_rng seed)). now exists r. }
  match goal with |- Some (fst (the_loop _ _ _ ?val ?c ?n ?wd ?X ?E ?base (S ?f) ?w ?o ?g ?b ?bd)) = _ /\ _ => destruct (loop_fails W Op G random choice integers default_rng rsqrt tiny step encode head encode_eval argmax softmax unit_row cosine cross log_pow sp (nd_y d) train c n wd X E base val f w o g b bd HB) as (e' & _ & ->) end.
  split; [reflexivity|]. split; [reflexivity|]. eexists. reflexivity.
Qed.
(* predict_proba answers exactly for a fitted object and usable data with as many nodes *)
Theorem C144_predict_returns obj d : 
  (exists P, predict obj d = Ok P) <-> (exists w, go_model W obj = Some w) /\ (exists E, go_edges W obj = Some E) /\ usable d /\ (forall n, go_n W obj = Some n -> lenZ (nd_X d) = n).
Proof.
  unfold grafn_predict. destruct (go_model W obj) as [w|]; [|split; [intros [P H]; discriminate|intros ((w & H) & _); discriminate]].
  destruct (go_edges W obj) as [E|]; [|split; [intros [P H]; discriminate|intros (_ & (E & H) & _); discriminate]].
  destruct (prepare_data rsqrt tiny d true NormSym) as [p|e] eqn:Ep; cbn [bind].
  - apply prepare_ok in Ep as (Hu & train & Ht & ->). cbn [pp_n prepared_of pp_X]. destruct (go_n W obj) as [n|].
    + destruct (Z.eqb_spec (lenZ (nd_X d)) n) as [En|En]; cbn [negb]; split.
      * intros _. split; [now exists w|]. split; [now exists E|]. split; [exact Hu|]. intros n' [= <-]. exact En.
      * intros _. eexists. reflexivity.
      * intros [P H]; discriminate.
      * intros (_ & _ & _ & H). exfalso. apply En, H. reflexivity.
    + split; intros _; [split; [now exists w|]; split; [now exists E|]; split; [exact Hu|discriminate]|eexists; reflexivity].
  - split; [intros [P H]; discriminate|]. intros (_ & _ & Hu & _). apply (C104_returns rsqrt tiny d true NormSym) in Hu as [p Hp]. congruence.
Qed.
(* the answer: the softmax of the logits of the new features on the graph of the fit, whatever graph, labels and masks come with them *)
Theorem C144_predict sp seed d obj obj' d' P : fit sp seed d obj = (obj', Ok tt) -> predict obj' d' = Ok P ->
  exists w, go_model W obj' = Some w /\ (forall train, nd_train d = Some train -> P = map (fun z => softmax (head w z)) (encode_eval w (nd_X d', pp_E (prepared_of rsqrt tiny d true NormSym train)))) /\
    (forall d2, usable d2 -> nd_X d2 = nd_X d' -> predict obj' d2 = Ok P).
Proof.
  intros HF HP. destruct (C144_training _ _ _ _ _ HF) as (train & ws & o & g & Ht & _ & Hn & HE & _). 
  assert (HR : exists P, predict obj' d' = Ok P) by now exists P. apply C144_predict_returns in HR as ((w & Hw) & _ & Hu' & HN). exists w. split; [exact Hw|].
  assert (HV : forall d2, usable d2 -> lenZ (nd_X d2) = lenZ (nd_X d) -> predict obj' d2 = Ok (map (fun z => softmax (head w z)) (encode_eval w (nd_X d2, pp_E (prepared_of rsqrt tiny d true NormSym train))))).
  { intros d2 Hu2 Hl2. unfold grafn_predict. rewrite Hw, HE. destruct (prepare_data rsqrt tiny d2 true NormSym) as [p|e] eqn:Ep; [|apply (C104_returns rsqrt tiny d2 true NormSym) in Hu2 as [p Hp]; congruence]. cbn [bind]. apply prepare_ok in Ep as (_ & t2 & _ & ->). rewrite Hn. unfold prepared_of at 1. cbn [pp_n]. rewrite Hl2, Z.eqb_refl. reflexivity. }
  specialize (HN _ Hn). split.
  - intros train' Ht'. rewrite Ht in Ht'. injection Ht' as <-. rewrite (HV d' Hu' HN) in HP. now injection HP as <-.
  - intros d2 Hu2 HX. rewrite (HV d2 Hu2) by now rewrite HX. rewrite (HV d' Hu' HN) in HP. rewrite HX. exact HP.
Qed.
(* only the labels of training and validation nodes, and the number of classes, reach a fit *)
Theorem C144_labels sp seed d y' obj : (forall l1 l2 w o, (forall v, l1 v = l2 v) -> step l1 w o = step l2 w o) ->
  usable d -> usable (with_labels d y') -> length y' = length (nd_y d) -> count_classes y' = count_classes (nd_y d) ->
  (forall i m, nd_train d = Some m \/ nd_val d = Some m -> nth i m false = true -> nth i y' (-1)%Z = nth i (nd_y d) (-1)%Z) ->
  fit sp seed (with_labels d y') obj = fit sp seed d obj.
Proof.
  intros Hstep Hu Hu' Hlen Hcc Hsame. unfold grafn_fit. destruct (Qle_bool (gf_tau sp) 0); [reflexivity|]. destruct (negb (Qle_bool 0 (gf_thres sp) && Qle_bool (gf_thres sp) 1)); [reflexivity|].
  destruct (proj2 (C104_returns rsqrt tiny d true NormSym) Hu) as [p Hp]. destruct (proj2 (C104_returns rsqrt tiny (with_labels d y') true NormSym) Hu') as [p' Hp']. rewrite Hp, Hp'.
  apply prepare_ok in Hp as (_ & train & Ht & ->). apply prepare_ok in Hp' as (_ & train' & Ht' & ->). cbn [nd_train with_labels] in Ht'. rewrite Ht in Ht'. injection Ht' as <-.
  unfold prepared_of. cbn [pp_train pp_E pp_n pp_classes pp_y pp_val pp_X with_labels nd_X nd_y nd_edges nd_weight nd_width nd_val]. rewrite Hcc. change (weighted (with_labels d y')) with (weighted d).
  destruct (negb (existsb (fun b => b) train)); [reflexivity|]. destruct (Nat.eqb (gf_layers sp) 0); [reflexivity|].
  assert (HT : forall i, nth i train false = true -> nth i y' (-1)%Z = nth i (nd_y d) (-1)%Z) by (intros i; apply Hsame; now left).
  set (y := nd_y d) in *. set (k := count_classes y) in *.
  assert (HC : forall c, class_nodes y' train c = class_nodes y train c) by (intros c; unfold class_nodes; rewrite Hlen; apply filter_ext_in; intros i _; destruct (nth i train false) eqn:E; [rewrite (HT i E)|]; reflexivity).
  assert (HB : bad_label y' train k = bad_label y train k).
  { unfold bad_label. rewrite Hlen. generalize (seq 0 (length y)). intros l. induction l as [|i l IH]; [reflexivity|]. cbn [existsb]. rewrite IH. destruct (nth i train false) eqn:E; [rewrite (HT i E)|]; reflexivity. }
  assert (HO : forall n wd X E g, draws_of sp y' train k n wd X E g = draws_of sp y train k n wd X E g).
  { intros n wd X E g. unfold epoch_objective, sample_support. rewrite (map_ext _ _ (fun c => HC (Z.of_nat c))). reflexivity. }
  assert (HL : forall ob w, the_loss sp y' train k ob w = the_loss sp y train k ob w).
  { intros ob w. unfold loss_of, epoch_loss. rewrite Hlen.
    assert (H1 : forall tg i, target_row (Z.to_nat k) y' train tg i = target_row (Z.to_nat k) y train tg i) by (intros tg i; unfold target_row; destruct (nth i train false) eqn:E; [rewrite (HT i E)|]; reflexivity).
    assert (H2 : forall z, map (fun i => cross (nth i z []) (nth i y' (-1)%Z)) (filter (fun i => nth i train false) (seq 0 (length y))) = map (fun i => cross (nth i z []) (nth i y (-1)%Z)) (filter (fun i => nth i train false) (seq 0 (length y)))).
    { intros z. apply map_ext_in. intros i Hi. apply filter_In in Hi as [_ Hi]. rewrite (HT i Hi). reflexivity. }
    rewrite !H2. erewrite (map_ext_in (fun i => Qsum (map _ (combine _ (target_row (Z.to_nat k) y' train _ i))))); [reflexivity|]. intros i _. cbv beta. rewrite H1. reflexivity. }
  assert (HA : forall m base w, nd_val d = Some m -> accuracy W head encode_eval argmax y' m base w = accuracy W head encode_eval argmax y m base w).
  { intros m base w Hm. unfold accuracy. rewrite Hlen. f_equal. apply map_ext_in. intros i Hi. apply filter_In in Hi as [_ Hi]. rewrite (Hsame i m (or_intror Hm) Hi). reflexivity. }
  assert (HE : forall base n wd X E fuel w o g best bad, the_loop sp y' train (nd_val d) k n wd X E base fuel w o g best bad = the_loop sp y train (nd_val d) k n wd X E base fuel w o g best bad).
  { intros base n wd X E. induction fuel as [|fuel IH]; intros w o g best bad; [reflexivity|]. cbn [epochs]. rewrite HO. destruct (draws_of sp y train k n wd X E g) as [[ob g']|e]; [|reflexivity]. rewrite HB. destruct (bad_label y train k); [reflexivity|].
    rewrite (Hstep _ (the_loss sp y train k ob) w o (HL ob)). destruct (step (the_loss sp y train k ob) w o) as [w' o']. destruct (nd_val d) as [m|] eqn:Ev; [|apply IH]. destruct (existsb (fun b => b) m); [|apply IH].
    rewrite (HA m base w' eq_refl). destruct (match best with None => true | Some (a, _) => Qltb a (accuracy W head encode_eval argmax y m base w') end); [apply IH|]. destruct (gf_patience sp <=? bad + 1)%Z; [reflexivity|apply IH]. }
  rewrite HE. reflexivity.
Qed.
(* the draws of an epoch: the support, then the strong view and the weak view, each with a generator of its own *)
Theorem C143_epoch sp y train classes n width X E g ob g' : draws_ok random -> same_value rsqrt -> (0 < n)%Z -> lenZ X = n -> (forall r, In r X -> length r = width) -> (forall e, In e E -> (0 <= e_src e < n)%Z /\ (0 <= e_dst e < n)%Z) ->
  draws_of sp y train classes n width X E g = Ok (ob, g') ->
  exists g1, sample_support G choice y train classes g = Ok (ob_support ob, ob_labels ob, g1) /\ g' = snd (integers (snd (integers g1))) /\
    drawn_view random rsqrt tiny (gf_edge_strong sp) (gf_feat_strong sp) width X E (default_rng (fst (integers g1))) (ob_anchor ob) /\
    drawn_view random rsqrt tiny (gf_edge_weak sp) (gf_feat_weak sp) width X E (default_rng (fst (integers (snd (integers g1))))) (ob_pos ob).
Proof.
  intros Hr Hs Hn HX HW HE. unfold epoch_objective. destruct (sample_support G choice y train classes g) as [[[s L] g1]|e]; [|discriminate]. cbn [bind]. destruct (integers g1) as [s1 g2] eqn:E1.
  destruct (augmented G random rsqrt tiny (gf_edge_strong sp) (gf_feat_strong sp) n width X E (default_rng s1)) as [v1 h1] eqn:A1. destruct (integers g2) as [s2 g3] eqn:E2.
  destruct (augmented G random rsqrt tiny (gf_edge_weak sp) (gf_feat_weak sp) n width X E (default_rng s2)) as [v2 h2] eqn:A2. intros [= <- <-]. cbn [ob_support ob_labels ob_anchor ob_pos]. exists g1. split; [reflexivity|]. rewrite E1. cbn [fst snd]. rewrite E2. cbn [fst snd]. split; [reflexivity|].
  assert (HV : forall de df h, drawn_view random rsqrt tiny de df width X E h (fst (augmented G random rsqrt tiny de df n width X E h))).
  { intros de df h. unfold drawn_view, augmented. cbv zeta. destruct (drop_features_draws G random Hr df width X h HW) as (F1 & F2 & F3). destruct (drop_features G random df width X h) as [X' h']. cbn [fst snd] in *.
    destruct (drop_edges_draws G random Hr de E h') as (D1 & D2). assert (D3 := proj1 (drop_edges_spec G random Hr de E h')). destruct (drop_edges G random de E h') as [E' h'']. cbn [fst snd] in *. rewrite F1 in *. split; [exact F2|]. split; [exact F3|].
    exists E'. split; [exact D1|]. split; [exact D2|]. intros i j Hi Hj. assert (HN : Z.to_nat n = length X) by (unfold lenZ in HX; lia). rewrite <- HN in *.
    apply (prepared_weight rsqrt tiny NormSym true n E' i j); [intros _; exact Hs|exact Hn| |exact Hi|exact Hj]. intros e He. specialize (HE e (part_In _ _ D3 e He)). lia. }
  split; [specialize (HV (gf_edge_strong sp) (gf_feat_strong sp) (default_rng s1)); now rewrite A1 in HV|specialize (HV (gf_edge_weak sp) (gf_feat_weak sp) (default_rng s2)); now rewrite A2 in HV].
Qed.
(* the loss of an epoch at weights w *)
Theorem C143_epoch_loss sp y train classes ob w m cls Tr I : softmax_ok softmax -> log_pow_ok log_pow -> (0 < classes)%Z -> (0 < m)%nat -> length (ob_support ob) = m -> indicates (Z.to_nat classes) m cls (ob_labels ob) ->
  length (encode w (ob_anchor ob)) = length y -> length (encode w (ob_pos ob)) = length y ->
  (forall i, (i < length y)%nat -> nth i train false = true -> (0 <= nth i y (-1) < classes)%Z) ->
  listed Tr (fun i => (i < length y)%nat /\ nth i train false = true) ->
  listed I (fun i => (i < length y)%nat /\ (nth i train false = true \/ exists c, (c < Z.to_nat classes)%nat /\ gf_thres sp < assigned softmax unit_row (gf_tau sp) m cls (ob_support ob) (encode w (ob_pos ob)) i c)) ->
  the_loss sp y train classes ob w ==
    loss_formula softmax unit_row cosine cross log_pow (gf_tau sp) (gf_lam_c sp) (gf_lam_n sp) (Z.to_nat classes) m cls y train (ob_support ob) (encode w (ob_anchor ob)) (encode w (ob_pos ob))
      (map (head w) (encode w (ob_anchor ob))) (map (head w) (encode w (ob_pos ob))) Tr I.
Proof.
  intros Hs Hl Hc Hm HS HI HA HP HY HT HN. unfold loss_of. cbv zeta. apply C143_loss; try assumption; [lia|]. intros i Hi Ht. specialize (HY i Hi Ht). lia.
Qed.
End C144.
(* ---- witnesses *)
Definition gx_random (u : Q) (g : Z) (k : nat) : list Q * Z := (repeat u k, (g + 1)%Z).
Definition gx_choice (g : Z) (idx : list nat) (k : nat) (r : bool) : list nat * Z := (firstn k idx, (g + 1)%Z).
Definition gx_data (y : list Z) (train : list bool) (val : option (list bool)) : node_data :=
  {| nd_X := [[1]; [2]; [4]; [-1]]; nd_width := 1; nd_y := y; nd_edges := [(0, 1); (1, 2); (2, 3)]%Z; nd_weight := None; nd_train := Some train; nd_val := val; nd_test := None; nd_unlabeled := None |}.
Definition gx_spec (epochs : Z) : grafn_spec := {| gf_layers := 1; gf_max_epochs := epochs; gf_patience := 1; gf_tau := 1 # 10; gf_thres := 9 # 10; gf_lam_c := 1; gf_lam_n := 1; gf_feat_strong := 1 # 2; gf_edge_strong := 1 # 2; gf_feat_weak := 0; gf_edge_weak := 0 |}.
(* the weight counts the steps; the logits turn to class 1 from the second step on *)
Definition gx_step (l : Z -> Q) (w : Z) (o : unit) : Z * unit := ((w + 1)%Z, tt).
Definition gx_head (w : Z) (z : list Q) : list Q := if (w <? 2)%Z then [1; 0] else [0; 1].
Definition gx_encode (w : Z) (v : view) : mat := fst v.
Definition gx_fit := grafn_fit Z unit Z unit (gx_random (1 # 2)) gx_choice (fun g => (g, (g + 1)%Z)) (fun s => s) (fun _ => tt) ex_rsqrt ex_tiny (fun _ _ _ => 0%Z) (fun _ => tt) gx_step gx_encode gx_head gx_encode ex_argmax ex_softmax (fun r => r) (fun _ _ => 0) ex_ce Qmult.
Definition gx_predict := grafn_predict Z ex_rsqrt ex_tiny gx_head gx_encode ex_softmax.
Definition gx_new : grafn Z := {| go_model := None; go_edges := None; go_n := None |}.
Lemma gx_draws_ok : draws_ok (gx_random (1 # 2)).
Proof. intros g k. cbn [fst gx_random]. rewrite repeat_length. split; [reflexivity|]. intros v Hv. apply repeat_spec in Hv. subst v. split; [vm_compute; discriminate|vm_compute; reflexivity]. Qed.
Lemma gx_choice_ok : choice_ok gx_choice.
Proof.
  intros g idx k Hnd Hk. cbn [fst gx_choice]. split; [rewrite firstn_length; lia|]. split; [|intros x Hx; rewrite <- (firstn_skipn k idx); apply in_or_app; now left].
  clear Hk. revert k. induction Hnd as [|a l Ha Hl IH]; intros [|k]; try constructor; [|apply IH]. intros H. apply Ha. rewrite <- (firstn_skipn k l). apply in_or_app. now left.
Qed.
Lemma gx_usable y train val : length y = 4%nat -> length train = 4%nat -> (forall m, val = Some m -> length m = 4%nat) -> (forall c b, In c y -> (0 <= b <= c)%Z -> In b y) -> usable (gx_data y train val).
Proof.
  intros Hy Ht Hv Hc. split; [cbn [gx_data nd_X nd_y]; now rewrite Hy|]. split; [exact Hc|]. split; [intros e [<-|[<-|[<-|[]]]]; cbn; lia|]. split; [eexists; reflexivity|]. split; [|exact I]. intros m [Hm|[Hm|[Hm|Hm]]]; try discriminate Hm; [injection Hm as <-; exact Ht|apply Hv, Hm].
Qed.
Example C143_hypotheses : draws_ok (gx_random (1 # 2)) /\ choice_ok gx_choice /\ same_value ex_rsqrt /\ softmax_ok ex_softmax /\ log_pow_ok Qmult /\
  sample_support Z gx_choice [0; 1; 0; 1]%Z [true; true; true; false] 2 0%Z = Ok ([0; 1]%nat, [[1; 0]; [0; 1]], 2%Z) /\
  indicates 2 2 (fun t => t / 1)%nat [[1; 0]; [0; 1]] /\ labelled_count [0; 1; 0; 1]%Z [true; true; true; false] 0 2 /\
  snd (fst (augmented Z (gx_random (1 # 2)) ex_rsqrt ex_tiny (1 # 4) (3 # 4) 2 1 [[1]; [2]] [(0%Z, 1%Z, 1)] 0%Z)) <> [] /\
  fst (fst (augmented Z (gx_random (1 # 2)) ex_rsqrt ex_tiny (1 # 4) (3 # 4) 2 1 [[1]; [2]] [(0%Z, 1%Z, 1)] 0%Z)) = [[0]; [0]].
Proof.
  split; [exact gx_draws_ok|]. split; [exact gx_choice_ok|]. split; [intros x y H; unfold ex_rsqrt; rewrite H; reflexivity|]. split; [exact ex_softmax_ok|]. split; [split; [intros p p' t t' H1 H2; rewrite H1, H2; reflexivity|intros p; apply Qmult_0_r]|].
  split; [reflexivity|]. split; [split; [reflexivity|]; intros [|[|t]] Ht; [split; [cbn; lia|reflexivity]|split; [cbn; lia|reflexivity]|lia]|]. split; [|split; [vm_compute; discriminate|reflexivity]].
  exists [0; 2]%nat. split; [repeat constructor; cbn; intuition discriminate|]. split; [reflexivity|]. intros i. unfold labelled. cbn [length In]. destruct i as [|[|[|[|i]]]]; cbn [nth]; split; intros H; try lia; try (destruct H as (? & ? & ?); discriminate); intuition (discriminate || lia || reflexivity).
Qed.
(* a rate of 1 hides every feature, but keeps every edge *)
Theorem C143_all_edges_refuted : draws_ok (gx_random (1 # 2)) /\ let v := fst (augmented Z (gx_random (1 # 2)) ex_rsqrt ex_tiny 1 1 2 1 [[1]; [2]] [(0%Z, 1%Z, 1)] 0%Z) in
  fst v = [[0]; [0]] /\ snd v = snd (fst (augmented Z (gx_random (1 # 2)) ex_rsqrt ex_tiny 0 0 2 1 [[1]; [2]] [(0%Z, 1%Z, 1)] 0%Z)) /\ 0 < weight_from (snd v) 1 0.
Proof. split; [exact gx_draws_ok|]. cbv zeta. split; [reflexivity|]. split; vm_compute; reflexivity. Qed.
(* the pseudo-targets of a node need not be a distribution: small shares are removed and the rest is not scaled up *)
Theorem C143_target_sum_refuted : softmax_ok ex_softmax /\
  Qsum (target_row 2 [0; 1; -1]%Z [true; true; false] (snn ex_softmax (fun r => r) 1 2 [[1; 0]; [0; 1]; [19999; 1]] [[1; 0]; [0; 1]] [[1; 0]; [0; 1]]) 2) == 19999 # 20000.
Proof. split; [exact ex_softmax_ok|]. vm_compute. reflexivity. Qed.
Definition gx_d : node_data := gx_data [0; 1; 0; 1]%Z [true; true; false; false] (Some [false; false; false; true]).
Example C144_hypotheses : loop_reached (gx_spec 5) gx_d /\ trainable gx_d /\ validated (nd_val gx_d) [false; false; false; true] /\
  (* the second epoch is the first with the highest accuracy, the third one stops *)
  (exists E, gx_fit (gx_spec 5) 0 gx_d gx_new = ({| go_model := Some 2%Z; go_edges := Some E; go_n := Some 4%Z |}, Ok tt)) /\
  (exists P, gx_predict (fst (gx_fit (gx_spec 5) 0 gx_d gx_new)) gx_d = Ok P /\ map (map Qred) P = [[0; 1]; [0; 1]; [0; 1]; [0; 1]]) /\
  snd (gx_fit (gx_spec 5) 0 (with_labels gx_d [0; 1; 1; 1]%Z) gx_new) = Ok tt /\ usable (with_labels gx_d [0; 1; 1; 1]%Z) /\ count_classes [0; 1; 1; 1]%Z = count_classes (nd_y gx_d).
Proof.
  assert (HU : usable gx_d) by (apply gx_usable; try reflexivity; [intros m [= <-]; reflexivity|intros c b [<-|[<-|[<-|[<-|[]]]]] Hb; cbn; lia]).
  split; [split; [reflexivity|]; split; [split; vm_compute; discriminate|]; split; [exact HU|]; split; [exists [true; true; false; false], 0%nat; split; reflexivity|discriminate]|].
  split. { intros m [= <-]. split; [intros [|[|[|[|i]]]] Hi Ht; cbn in *; try lia; discriminate|]. intros v Hv Hv0. cbn in Hv. destruct (Z.eq_dec v 0) as [->|H0]; [exists 0%nat; repeat split; cbn; lia|]. destruct (Z.eq_dec v 1) as [->|H1]; [exists 1%nat; repeat split; cbn; lia|]. exfalso. lia. }
  split; [split; [reflexivity|]; exists 3%nat; reflexivity|]. split; [eexists; vm_compute; reflexivity|]. split; [eexists; split; [vm_compute; reflexivity|vm_compute; reflexivity]|]. split; [vm_compute; reflexivity|].
  split; [|reflexivity]. apply (gx_usable [0; 1; 1; 1]%Z [true; true; false; false] (Some [false; false; false; true])); try reflexivity; [intros m [= <-]; reflexivity|intros c b [<-|[<-|[<-|[<-|[]]]]] Hb; cbn; lia].
Qed.
(* a fit that raises for a class without training nodes leaves an untrained model behind: a new object then answers predict_proba *)
Theorem C144_failed_refuted : let d := gx_data [0; 1; 0; 1]%Z [true; false; true; false] None in
  gx_predict gx_new d = Err RuntimeError /\ snd (gx_fit (gx_spec 5) 0 d gx_new) = Err ValueError /\ exists P, gx_predict (fst (gx_fit (gx_spec 5) 0 d gx_new)) d = Ok P.
Proof. cbv zeta. split; [reflexivity|]. split; [vm_compute; reflexivity|]. eexists. vm_compute. reflexivity. Qed.

Print Assumptions C143_support.
Print Assumptions C143_support_returns.
Print Assumptions C143_views.
Print Assumptions C143_neighbours.
Print Assumptions C143_targets.
Print Assumptions C143_loss.
Print Assumptions C143_epoch.
Print Assumptions C143_epoch_loss.
Print Assumptions C144_returns.
Print Assumptions C144_training.
Print Assumptions C144_accuracy.
Print Assumptions C144_failed.
Print Assumptions C144_predict_returns.
Print Assumptions C144_predict.
Print Assumptions C144_labels.
Print Assumptions C143_all_edges_refuted.
Print Assumptions C143_target_sum_refuted.
Print Assumptions C144_failed_refuted.
