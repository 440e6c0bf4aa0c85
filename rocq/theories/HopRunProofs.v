(* Early stopping and the iteration of GraphHop. *)
From Coq Require Import QArith Qminmax Lia Lqa Permutation.
From Coq Require Import ZifyBool ZifyNat.
From Verif Require Import Prelude ListFacts QFacts TransModel TransSpec TransProofs GnnModel GnnSpec GnnTrainProofs HopModel HopSpec HopProofs HopFitProofs.
Local Open Scope Z_scope.
Local Open Scope list_scope.
Local Notation length := List.length.

Section Stop.
Context {M Op : Type}.
Variable descend : M -> Op -> (M -> option Q) -> M * Op.
Variable adam : M -> Op.
Notation st L m0 e := (Nat.iter e (fun s => descend (fst s) (snd s) L) (m0, adam m0)).
Lemma epochs_after L m0 fuel : forall e, epochs M Op descend L fuel (fst (st L m0 e)) (snd (st L m0 e)) = after descend adam L m0 (e + fuel).
Proof using All.
  induction fuel as [|fuel IH]; intros e; cbn [epochs]; [now rewrite Nat.add_0_r|]. replace (e + S fuel)%nat with (S e + fuel)%nat by lia. rewrite <- IH. cbn [Nat.iter nat_rect]. destruct (descend _ _ L); reflexivity.
Qed.
Definition before (v : nat -> option Q) (e : nat) : option (option Q) := match e with O => None | S a => Some (v a) end.
Lemma improves_iff delta v e : improves delta (before v e) (v e) = true <-> better delta v e.
Proof using All.
  destruct e as [|a]; cbn [before improves better]; [tauto|]. destruct (v a) as [p|]; [|split; [intros _ ? ? ?; discriminate|reflexivity]]. destruct (v (S a)) as [x|]; [|split; [intros _ ? ? ? ?; discriminate|reflexivity]].
  rewrite negb_true_iff, orb_false_iff, !negb_false_iff, !Qle_bool_iff. split.
  - intros [H1 H2] p' x' [= <-] [= <-]. split; [lra|exact H2].
  - intros H. destruct (H p x eq_refl eq_refl) as [H1 H2]. split; [lra|exact H2].
Qed.
(* after e epochs *)
Definition kept_so_far (delta : Q) (v : nat -> option Q) (mods : nat -> M) (e : nat) (best : option M) (bad : Z) : Prop :=
  match e with
  | O => best = None /\ bad = 0
  | S a => exists b, last_better delta v a b /\ best = Some (mods b) /\ bad = Z.of_nat a - Z.of_nat b
  end.
Lemma last_better_unique delta v e b b' : last_better delta v e b -> last_better delta v e b' -> b = b'.
Proof using All. intros (H1 & H2 & H3) (H1' & H2' & H3'). destruct (Nat.lt_trichotomy b b') as [H|[H|H]]; [exfalso; apply (H3 b'); [lia|exact H2']|exact H|exfalso; apply (H3' b); [lia|exact H2]]. Qed.
Lemma kept_next delta v mods e best bad : kept_so_far delta v mods e best bad ->
  kept_so_far delta v mods (S e) (if improves delta (before v e) (v e) then Some (mods e) else best) (if improves delta (before v e) (v e) then 0 else bad + 1).
Proof using All.
  intros K. cbn [kept_so_far]. destruct (improves delta (before v e) (v e)) eqn:E.
  - apply improves_iff in E. exists e. split; [|split; [reflexivity|lia]]. split; [lia|]. split; [exact E|]. intros c Hc; lia.
  - assert (NB : ~ better delta v e) by (intros B; apply improves_iff in B; congruence). destruct e as [|a]; [exfalso; apply NB; exact I|]. destruct K as (b & (K1 & K2 & K3) & -> & ->). exists b. split; [|split; [reflexivity|lia]].
    split; [lia|]. split; [exact K2|]. intros c Hc. destruct (Nat.eq_dec c (S a)) as [->|]; [exact NB|apply K3; lia].
Qed.
Lemma val_loop L V delta patience m0 fuel : let v e := V (after descend adam L m0 (S e)) in let mods e := after descend adam L m0 (S e) in
  forall e best bad, kept_so_far delta v mods e best bad -> (forall a b, (a < e)%nat -> last_better delta v a b -> Z.of_nat a - Z.of_nat b < patience) -> (0 < e + fuel)%nat ->
  exists n b, stops delta v patience (e + fuel) n /\ last_better delta v (n - 1) b /\ epochs_val M Op descend L V delta patience fuel (fst (st L m0 e)) (snd (st L m0 e)) (before v e) bad best = mods b.
Proof using All.
  intros v mods. induction fuel as [|fuel IH]; intros e best bad K NS POS.
  - destruct e as [|a]; [lia|]. destruct K as (b & LB & -> & ->). exists (S a), b. cbn [epochs_val]. replace (S a - 1)%nat with a by lia. split; [|split; [exact LB|reflexivity]].
    split; [lia|]. split; [intros a' b' Ha; apply NS; lia|]. left. lia.
  - cbn [epochs_val]. assert (ES : descend (fst (st L m0 e)) (snd (st L m0 e)) L = st L m0 (S e)) by reflexivity. rewrite ES. destruct (st L m0 (S e)) as [m1 o1] eqn:E1.
    assert (EM : m1 = mods e) by (unfold mods, after; rewrite E1; reflexivity). assert (EV : V m1 = v e) by (unfold v; fold (mods e); now rewrite <- EM). rewrite EV. pose proof (kept_next delta v mods e best bad K) as K'.
    rewrite <- EM in K'. destruct (improves delta (before v e) (v e)) eqn:EI; cbn [kept_so_far] in K'.
    + destruct K' as (b & LB & EB & EBad). destruct (patience <=? 0) eqn:EP.
      * exists (S e), b. replace (S e - 1)%nat with e by lia. split; [|split; [exact LB|injection EB as ->; reflexivity]]. split; [lia|]. split; [intros a' b' Ha; apply NS; lia|]. right. exists b. split; [replace (S e - 1)%nat with e by lia; exact LB|lia].
      * replace (e + S fuel)%nat with (S e + fuel)%nat by lia. pose proof (IH (S e) (Some m1) 0) as IH'. rewrite E1 in IH'. apply IH'; [exists b; auto| |lia].
        intros a' b' Ha LB'. destruct (Nat.eq_dec a' e) as [->|]; [|apply NS; [lia|exact LB']]. rewrite (last_better_unique _ _ _ _ _ LB' LB). lia.
    + destruct K' as (b & LB & EB & EBad). destruct (patience <=? bad + 1) eqn:EP.
      * exists (S e), b. replace (S e - 1)%nat with e by lia. split; [|split; [exact LB|rewrite EB; reflexivity]]. split; [lia|]. split; [intros a' b' Ha; apply NS; lia|]. right. exists b. split; [replace (S e - 1)%nat with e by lia; exact LB|lia].
      * replace (e + S fuel)%nat with (S e + fuel)%nat by lia. pose proof (IH (S e) best (bad + 1)) as IH'. rewrite E1 in IH'. apply IH'; [exists b; auto| |lia].
        intros a' b' Ha LB'. destruct (Nat.eq_dec a' e) as [->|]; [|apply NS; [lia|exact LB']]. rewrite (last_better_unique _ _ _ _ _ LB' LB). lia.
Qed.
Lemma val_trained L V delta patience limit m0 : trained descend adam limit patience delta L (Some V) m0 (epochs_val M Op descend L V delta patience limit m0 (adam m0) None 0 None).
Proof using All.
  cbn [trained]. destruct limit as [|fuel]; [left; auto|right]. apply (val_loop L V delta patience m0 (S fuel) 0 None 0); [split; reflexivity|intros; lia|lia].
Qed.
End Stop.

Section Run.
Context {M Op G : Type}.
Variable fresh : G -> nat -> nat -> M * G.
Variable adam : M -> Op.
Variable descend : M -> Op -> (M -> option Q) -> M * Op.
Variable log_prob : M -> list Q -> list (option Q).
Variable soft : M -> list Q -> list Q.
Variable temp_soft : Q -> M -> list Q -> list Q.
Variable expo : Q -> Q.
Variables (sp : hop_spec) (edges : list (Z * Z)) (n : Z) (k : nat) (train : list bool) (val : option (list bool)) (y : list Z).
Notation nn := (Z.to_nat n).
Hypothesis LT : length train = nn.
Hypothesis LY : length y = nn.
Hypothesis HY : forall i, (i < nn)%nat -> - Z.of_nat k <= nth i y (-1) < Z.of_nat k.
Hypothesis NE : exists i, (i < nn)%nat /\ sel train i = true.
Hypothesis LV : forall v, val = Some v -> length v = nn.
Notation onehot := (map (one_at k) y).
Notation link := (linked edges n (hs_symmetrize sp)).
Notation adj := (adj_list edges n (hs_symmetrize sp)).
Notation valpair := (match val with Some m => Some (m, masked m onehot) | None => None end).
Notation train_lr := (train_lr M Op G fresh adam descend log_prob expo sp).
Notation tron := (trained_on adam descend log_prob expo sp nn k train val y).
Lemma onehot_row_at i : (i < nn)%nat -> nth i onehot [] = one_at k (nth i y (-1)).
Proof using LY. clear LV HY NE LT. intros Hi. apply nth_map_in. rewrite LY. exact Hi. Qed.
(* labels whose labelled rows are the labels *)
Definition good_labels (P : mat) : Prop := length P = nn /\ (forall i, (i < nn)%nat -> length (nth i P []) = k) /\ forall i, (i < nn)%nat -> sel train i = true -> nth i P [] = one_at k (nth i y (-1)).
Lemma good_onehot : good_labels onehot.
Proof using All. split; [rewrite map_length; exact LY|]. split; [intros i Hi; rewrite onehot_row_at by exact Hi; apply one_at_length|]. intros i Hi _. apply onehot_row_at, Hi. Qed.
Lemma train_lr_ok step X P prev g : good_labels P -> length X = nn -> exists start,
  tron (step =? 0) X P start (fst (train_lr step (Z.of_nat k) X P train valpair prev g)) /\
  match prev with
  | Some m => if step <=? 1 then fresh g (length (hd [] X)) k = (start, snd (train_lr step (Z.of_nat k) X P train valpair prev g)) else start = m /\ snd (train_lr step (Z.of_nat k) X P train valpair prev g) = g
  | None => fresh g (length (hd [] X)) k = (start, snd (train_lr step (Z.of_nat k) X P train valpair prev g))
  end.
Proof using All.
  intros (LP & LR & HP) LX. unfold HopModel.train_lr. rewrite Nat2Z.id. destruct (fresh g (length (hd [] X)) k) as [mf gf] eqn:EF.
  set (s := match prev with Some m => if step <=? 1 then (mf, gf) else (m, g) | None => (mf, gf) end). destruct s as [start g1] eqn:ES. exists start. split.
  - cbn [fst]. eexists _, (match val with Some v => Some (valid_loss M log_prob X v (masked v onehot)) | None => None end). split; [|split].
    + apply train_loss_ok with (y := y); assumption.
    + destruct val as [v|]; [|reflexivity]. eexists. split; [reflexivity|]. apply (valid_loss_ok log_prob expo sp nn k train y LT LY HY NE); [apply LV; reflexivity|rewrite map_length; exact LY|exact LX|]. intros i Hi. apply onehot_row_at, Hi.
    + destruct val as [v|].
      * apply val_trained.
      * cbn [trained]. apply (epochs_after descend adam _ start (Z.to_nat (hs_max_epochs sp)) 0).
  - cbn [snd]. subst s. destruct prev as [m|]; [destruct (step <=? 1)|]; injection ES as <- <-; auto.
Qed.
Lemma per_hop_ok step P Xs : good_labels P -> (forall X, In X Xs -> length X = nn) -> step <> 0 -> forall prevs g, length prevs = length Xs -> (1 < step -> forall p, In p prevs -> p <> None) ->
  let r := per_hop M Op G fresh adam descend log_prob expo sp step (Z.of_nat k) P train valpair Xs prevs g in
  exists starts, map snd (fst r) = Xs /\ length starts = length Xs /\
    (if step <=? 1 then new_models fresh k Xs g starts (snd r) else map Some starts = prevs /\ snd r = g) /\
    (forall m X m0 m1, nth_error Xs m = Some X -> nth_error starts m = Some m0 -> nth_error (map fst (fst r)) m = Some m1 -> tron false X P m0 m1).
Proof using All.
  intros GP HX NZ. induction Xs as [|X Xs IH]; intros [|prev prevs] g LP HPr; try discriminate LP.
  - exists []. split; [reflexivity|]. split; [reflexivity|]. split; [|intros [|m] ? ? ? ?; discriminate]. destruct (step <=? 1); [constructor|split; reflexivity].
  - injection LP as LP. cbn [per_hop]. destruct (train_lr_ok step X P prev g GP (HX X (or_introl eq_refl))) as (start & T & HS). destruct (train_lr step (Z.of_nat k) X P train valpair prev g) as [m1 g1]. cbn [fst snd] in T, HS.
    destruct (IH (fun X' H => HX X' (or_intror H)) prevs g1 LP (fun H p Hp => HPr H p (or_intror Hp))) as (starts & R1 & R2 & R3 & R4). destruct (per_hop _ _ _ _ _ _ _ _ _ _ _ _ _ _ _ prevs g1) as [rest g2]. cbn [fst snd] in *.
    exists (start :: starts). cbn [map fst snd length]. split; [now rewrite R1|]. split; [now rewrite R2|]. split.
    + destruct (step <=? 1) eqn:E1.
      * econstructor; [|exact R3]. destruct prev; exact HS.
      * destruct prev as [m|]; [|exfalso; apply (HPr ltac:(lia) None); [now left|reflexivity]]. destruct HS as [-> ->]. destruct R3 as [<- ->]. split; reflexivity.
    + replace (step =? 0) with false in T by lia. intros [|m] X' m0 m1' H1 H2 H3; cbn in H1, H2, H3; [injection H1 as <-; injection H2 as <-; injection H3 as <-; exact T|]. eapply R4; eassumption.
Qed.
Lemma weighted_combined (f : M -> list Q -> list Q) ws (ms : list (M * mat)) i c : (i < nn)%nat -> (c < k)%nat -> (forall X, In X (map snd ms) -> length X = nn) ->
  entry (weighted_sum nn k ws (map (fun p : M * mat => map (f (fst p)) (snd p)) ms)) i c = combined f ws (map fst ms) (map snd ms) i c.
Proof using All.
  intros Hi Hc HX. unfold weighted_sum. rewrite entry_tabulate by assumption. unfold combined. f_equal. revert ws. induction ms as [|[m X] ms IH]; intros [|w ws]; [reflexivity..|]. cbn [map combine fst snd]. f_equal.
  - f_equal. unfold entry. rewrite (nth_map_in _ X i []) by (rewrite (HX X (or_introl eq_refl)); exact Hi). reflexivity.
  - apply IH. intros X' HX'. apply HX. now right.
Qed.
Lemma clamp_good F : shape nn k F -> good_labels (clamp train onehot F) /\ pseudo_labels nn k train y (clamp train onehot F) (entry F).
Proof using All.
  intros SF. assert (SO : shape nn k onehot).
  { split; [rewrite map_length; exact LY|]. intros r Hr. apply in_map_iff in Hr as (v & <- & _). apply one_at_length. }
  pose proof (clamp_shape train onehot F nn k LT SO SF) as SC. assert (ROW := fun i Hi => clamp_row train onehot F nn i LT (proj1 SO) (proj1 SF) Hi). split.
  - split; [apply SC|]. split; [intros i Hi; apply (shape_row nn k); assumption|]. intros i Hi Hs. rewrite ROW by exact Hi. unfold sel in Hs. rewrite Hs. apply onehot_row_at, Hi.
  - split; [apply SC|]. intros i Hi. split; [apply (shape_row nn k); assumption|]. intros c Hc. unfold entry. rewrite ROW by exact Hi. fold (sel train i). destruct (sel train i); [|reflexivity].
    rewrite onehot_row_at by exact Hi. rewrite one_at_nth by (auto). reflexivity.
Qed.
Lemma hop_loop_ok wt wp : 0 <= n -> forall fuel step H P prevs ms0 g, 1 <= step -> length H = nn -> good_labels P -> length prevs = Z.to_nat (hs_hops sp) -> (1 < step -> prevs = map Some ms0) ->
  iterates fresh adam descend log_prob soft temp_soft expo sp link nn k train val y wt wp fuel (step =? 1) H P ms0 g
    (hop_loop M Op G fresh adam descend log_prob soft temp_soft expo sp fuel step adj n (Z.of_nat k) onehot train valpair wt wp H P prevs g).
Proof using All.
  intros Hn. induction fuel as [|fuel IH]; intros step H P prevs ms0 g Hstep LH GP LP HPr; cbn [hop_loop]; [constructor|]. rewrite Nat2Z.id.
  set (Xs := hop_inputs adj n (Z.to_nat (hs_hops sp)) k H). assert (LXs : length Xs = Z.to_nat (hs_hops sp)) by (unfold Xs, hop_inputs; now rewrite map_length, seq_length).
  assert (HXs : forall m, (m < length Xs)%nat -> hop_input link nn k H m (nth m Xs [])) by (intros m Hm; apply hop_inputs_ok; [lia|exact Hn]).
  assert (HL : forall X, In X Xs -> length X = nn) by (intros X HX; apply (In_nth _ _ []) in HX as (m & Hm & <-); apply (HXs m Hm)).
  destruct (per_hop_ok step P Xs GP HL ltac:(lia) prevs g (eq_trans LP (eq_sym LXs))) as (starts & R1 & R2 & R3 & R4).
  { intros H1 p Hp. rewrite (HPr H1) in Hp. apply in_map_iff in Hp as (m & <- & _). discriminate. }
  destruct (per_hop M Op G fresh adam descend log_prob expo sp step (Z.of_nat k) P train valpair Xs prevs g) as [ms g1]. cbn [fst snd] in *.
  set (H' := weighted_sum nn k wp (map (fun p : M * mat => map (soft (fst p)) (snd p)) ms)). set (W := weighted_sum nn k wt (map (fun p : M * mat => map (temp_soft (hs_temperature sp) (fst p)) (snd p)) ms)).
  assert (SW : shape nn k W) by apply shape_tabulate. assert (SH : shape nn k H') by apply shape_tabulate. destruct (clamp_good W SW) as [GP' PP']. assert (HM : forall X, In X (map snd ms) -> length X = nn) by (rewrite R1; exact HL).
  eapply (it_round _ _ _ _ _ _ _ _ _ _ _ _ _ _ wt wp fuel (step =? 1) H P ms0 g Xs starts g1 (map fst ms) H' (clamp train onehot W)).
  - exact LXs.
  - exact HXs.
  - destruct (Z.eqb_spec step 1) as [->|N1]; [exact R3|]. replace (step <=? 1) with false in R3 by lia. destruct R3 as [R3 ->]. split; [|reflexivity]. rewrite (HPr ltac:(lia)) in R3. clear -R3. revert ms0 R3. induction starts as [|a s IHs]; intros [|b t] E; try discriminate; [reflexivity|]. cbn in E. injection E as -> E. f_equal. apply IHs, E.
  - exact R2.
  - rewrite map_length. rewrite <- R1, map_length. reflexivity.
  - exact R4.
  - apply SH.
  - intros i Hi. split; [apply (shape_row nn k); assumption|]. intros c Hc. unfold H'. rewrite weighted_combined by assumption. rewrite R1. reflexivity.
  - destruct PP' as [PL PR]. split; [exact PL|]. intros i Hi. destruct (PR i Hi) as [PR1 PR2]. split; [exact PR1|]. intros c Hc. rewrite (PR2 c Hc). destruct (sel train i); [reflexivity|]. unfold W. rewrite weighted_combined by assumption. rewrite R1. reflexivity.
  - replace false with (step + 1 =? 1) by lia. apply IH; [lia|apply SH|exact GP'|rewrite map_length, <- LXs; rewrite <- R1, map_length; reflexivity|]. intros _. now rewrite map_map.
Qed.
End Run.

(* ---- fit *)
Lemma count_classes_top y t : top_label y t -> count_classes y = t + 1.
Proof.
  intros [Hin Hmax]. pose proof (count_classes_bound y t Hin). assert (HI : exists v, In v y /\ count_classes y = v + 1); [|destruct HI as (v & Hv & E); specialize (Hmax v Hv); lia].
  destruct y as [|a r]; [destruct Hin|]. cbn [count_classes]. clear. assert (HF : In (fold_right Z.max a r) (a :: r)); [|eexists; split; [exact HF|reflexivity]].
  induction r as [|b r IH]; cbn [fold_right]; [now left|]. destruct (Z.max_spec b (fold_right Z.max a r)) as [[_ ->]|[_ ->]]; [destruct IH as [IH|IH]; [left; exact IH|right; right; exact IH]|right; now left].
Qed.
Lemma top_exists y : y <> [] -> top_label y (count_classes y - 1).
Proof.
  intros NE. assert (HB := count_classes_bound y). split; [|intros v Hv; specialize (HB v Hv); lia]. destruct y as [|a r]; [contradiction|]. cbn [count_classes]. rewrite Z.add_simpl_r. clear.
  induction r as [|b r IH]; cbn [fold_right]; [now left|]. destruct (Z.max_spec b (fold_right Z.max a r)) as [[_ ->]|[_ ->]]; [destruct IH as [IH|IH]; [left; exact IH|right; right; exact IH]|right; now left].
Qed.
Lemma masked_sel y mask v : length mask = length y -> In v (masked mask y) <-> exists i, (i < length y)%nat /\ sel mask i = true /\ nth i y (-1) = v.
Proof. intros HL. apply (masked_In mask y v (-1) HL). Qed.
Definition fit_ok (sp : hop_spec) (d : node_data) (train : list bool) (t : Z) : Prop :=
  1 <= hs_hops sp /\ (0 < hs_temperature sp)%Q /\ usable d /\ nd_train d = Some train /\ top_label (nd_y d) t /\ labelled_ok train (nd_y d) t /\
  weights_fit (hs_hops sp) (hs_weight_temp sp) /\ weights_fit (hs_hops sp) (hs_weight_pred sp).
Lemma weights_len hops w : 1 <= hops -> (lenZ (hop_weights hops w) =? hops) = true <-> weights_fit hops w.
Proof. intros Hh. unfold hop_weights, weights_fit, lenZ. destruct w; [lia|]. rewrite repeat_length. split; [trivial|lia]. Qed.
Section Fit.
Context {M Op G : Type}.
Variable fresh : G -> nat -> nat -> M * G.
Variable adam : M -> Op.
Variable descend : M -> Op -> (M -> option Q) -> M * Op.
Variable log_prob : M -> list Q -> list (option Q).
Variable soft : M -> list Q -> list Q.
Variable temp_soft : Q -> M -> list Q -> list Q.
Variable expo : Q -> Q.
Variable rsqrt : Q -> Q.
Variable tiny : Q.
Variable seeded : Z -> G.
Notation fit := (hop_fit M Op G fresh adam descend log_prob soft temp_soft expo rsqrt tiny seeded).
(* the result, when the checks pass *)
Definition val_of (d : node_data) : option (list bool) := match nd_val d with Some m => if existsb (fun b => b) m then Some m else None | None => None end.
Definition outcome (sp : hop_spec) (seed : Z) (d : node_data) (train : list bool) (classes : Z) : hop_state :=
  let n := lenZ (nd_X d) in
  let adj := adj_list (nd_edges d) n (hs_symmetrize sp) in
  let hops := Z.to_nat (hs_hops sp) in
  let onehot := map (one_at (Z.to_nat classes)) (nd_y d) in
  let val := match val_of d with Some m => Some (m, masked m onehot) | None => None end in
  let X := last (hop_inputs adj n hops (nd_width d) (nd_X d)) [] in
  let r := train_lr M Op G fresh adam descend log_prob expo sp 0 classes X onehot train val None (seeded seed) in
  {| st_proba := hop_loop M Op G fresh adam descend log_prob soft temp_soft expo sp (Z.to_nat (hs_max_iter sp)) 1 adj n classes onehot train val
       (hop_weights (hs_hops sp) (hs_weight_temp sp)) (hop_weights (hs_hops sp) (hs_weight_pred sp)) (map (soft (fst r)) X)
       (clamp train onehot (map (temp_soft (hs_temperature sp) (fst r)) X)) (repeat None hops) (snd r); st_n := n |}.
Lemma hop_fit_iff sp seed d st : fit sp seed d = Ok st <-> exists train t, fit_ok sp d train t /\ st = outcome sp seed d train (t + 1).
Proof.
  unfold hop_fit, fit_ok. destruct (hs_hops sp <? 1) eqn:E1; [split; [discriminate|intros (? & ? & (? & _) & _); lia]|].
  destruct (Qle_bool (hs_temperature sp) 0) eqn:E2; [apply Qle_bool_iff in E2; split; [discriminate|intros (? & ? & (_ & ? & _) & _); lra]|].
  assert (HT : (0 < hs_temperature sp)%Q) by (apply Qnot_le_lt; intros H; apply Qle_bool_iff in H; congruence). assert (HH : 1 <= hs_hops sp) by lia. clear E1 E2.
  destruct (prepare_data rsqrt tiny d false NormRw) as [p|e] eqn:EP; cbn [bind].
  2:{ split; [discriminate|]. intros (train & t & (_ & _ & U & ET & _) & _). exfalso. assert (prepare_data rsqrt tiny d false NormRw = Ok (prepared_of rsqrt tiny d false NormRw train)) by (apply prepare_ok; split; [exact U|exists train; auto]). congruence. }
  apply prepare_ok in EP as (U & train & ET & ->). unfold prepared_of. cbn [pp_train pp_y pp_n pp_val pp_X]. rewrite ET.
  assert (HLen : length train = length (nd_y d) /\ length (nd_X d) = length (nd_y d)) by (destruct U as (U1 & _ & _ & _ & U2 & _); split; [rewrite <- U1; apply U2; now left|exact U1]). destruct HLen as [HL HX].
  destruct (existsb (fun b => b) train) eqn:E3; cbn [negb].
  2:{ split; [discriminate|]. intros (tr & t & (_ & _ & _ & [= <-] & _ & (HS & _) & _) & _). apply exists_true in HS. congruence. }
  assert (HS : exists i, sel train i = true) by (apply exists_true; exact E3).
  assert (NEy : nd_y d <> []). { intros E. destruct HS as (i & Hi). unfold sel in Hi. destruct (Nat.lt_ge_cases i (length train)) as [Hlt|Hge]; [rewrite HL, E in Hlt; cbn in Hlt; lia|rewrite nth_overflow in Hi by exact Hge; discriminate]. }
  assert (TOP : forall t, top_label (nd_y d) t <-> t = count_classes (nd_y d) - 1) by (intros t; split; [intros H; rewrite (count_classes_top _ _ H); lia|intros ->; apply top_exists, NEy]).
  destruct (existsb (fun v => v <? 0) (masked train (nd_y d))) eqn:E4.
  { split; [discriminate|]. intros (tr & t & (_ & _ & _ & [= <-] & _ & (_ & HP & _) & _) & _). apply existsb_exists in E4 as (v & Hv & Hn). apply masked_sel in Hv as (i & Hi & Hs & Ev); [|exact HL]. specialize (HP i Hi Hs). lia. }
  assert (HP : forall i, (i < length (nd_y d))%nat -> sel train i = true -> 0 <= nth i (nd_y d) (-1)).
  { intros i Hi Hs. destruct (Z.lt_ge_cases (nth i (nd_y d) (-1)) 0) as [Hlt|]; [|lia]. exfalso. enough (existsb (fun v => v <? 0) (masked train (nd_y d)) = true) by congruence. apply existsb_exists. exists (nth i (nd_y d) (-1)). split; [apply masked_sel; [exact HL|exists i; auto]|lia]. }
  destruct (existsb (fun c => countZ c (masked train (nd_y d)) =? 0) (arange (count_classes (nd_y d)))) eqn:E5.
  { split; [discriminate|]. intros (tr & t & (_ & _ & _ & [= <-] & TT & (_ & _ & HC & _) & _) & _). apply TOP in TT. apply existsb_exists in E5 as (c & Hc & Hn). apply arange_In in Hc. destruct (HC c ltac:(lia)) as (i & Hi & Hs & Ec).
    assert (In c (masked train (nd_y d))) as HI by (apply masked_sel; [exact HL|exists i; auto]). apply countZ_pos in HI. lia. }
  assert (HC : forall c, 0 <= c <= count_classes (nd_y d) - 1 -> exists i, (i < length (nd_y d))%nat /\ sel train i = true /\ nth i (nd_y d) (-1) = c).
  { intros c Hc. apply masked_sel; [exact HL|]. apply countZ_pos. pose proof (countZ_nonneg c (masked train (nd_y d))). destruct (Z.eq_dec (countZ c (masked train (nd_y d))) 0) as [Hz|]; [|lia]. exfalso.
    enough (existsb (fun c => countZ c (masked train (nd_y d)) =? 0) (arange (count_classes (nd_y d))) = true) by congruence. apply existsb_exists. exists c. split; [apply arange_In; lia|lia]. }
  destruct (existsb (fun v => v <? - count_classes (nd_y d)) (nd_y d)) eqn:E6.
  { split; [discriminate|]. intros (tr & t & (_ & _ & _ & _ & TT & (_ & _ & _ & HV) & _) & _). apply TOP in TT. apply existsb_exists in E6 as (v & Hv & Hn). specialize (HV v Hv). lia. }
  assert (HV : forall v, In v (nd_y d) -> - (count_classes (nd_y d) - 1 + 1) <= v).
  { intros v Hv. destruct (Z.lt_ge_cases v (- count_classes (nd_y d))) as [Hlt|]; [|lia]. exfalso. enough (existsb (fun v => v <? - count_classes (nd_y d)) (nd_y d) = true) by congruence. apply existsb_exists. exists v. split; [exact Hv|lia]. }
  fold (val_of d). destruct (train_lr M Op G fresh adam descend log_prob expo sp 0 _ _ _ train _ None (seeded seed)) as [m0 g] eqn:ETr.
  destruct (negb (lenZ (hop_weights (hs_hops sp) (hs_weight_temp sp)) =? hs_hops sp)) eqn:E7.
  { split; [discriminate|]. intros (tr & t & (_ & _ & _ & _ & _ & _ & W & _) & _). apply weights_len in W; [|exact HH]. rewrite W in E7. discriminate. }
  destruct (negb (lenZ (hop_weights (hs_hops sp) (hs_weight_pred sp)) =? hs_hops sp)) eqn:E8.
  { split; [discriminate|]. intros (tr & t & (_ & _ & _ & _ & _ & _ & _ & W) & _). apply weights_len in W; [|exact HH]. rewrite W in E8. discriminate. }
  apply negb_false_iff, weights_len in E7; [|exact HH]. apply negb_false_iff, weights_len in E8; [|exact HH]. split.
  - intros [= <-]. exists train, (count_classes (nd_y d) - 1). split; [split; [exact HH|]; split; [exact HT|]; split; [exact U|]; split; [reflexivity|]; split; [apply TOP; reflexivity|]; split; [split; [exact HS|]; split; [exact HP|]; split; [exact HC|exact HV]|split; assumption]|].
    unfold outcome. rewrite Z.sub_add. rewrite ETr. reflexivity.
  - intros (tr & t & (_ & _ & _ & [= <-] & TT & _) & ->). apply TOP in TT as ->. unfold outcome. rewrite Z.sub_add. rewrite ETr. reflexivity.
Qed.
End Fit.
