(* C41, C42, C57, C58: the selection helpers and the training loops of pseudo-labelling,
   self-training and co-training. *)
From Coq Require Import List ZArith Lia Bool QArith Permutation Sorted.
From Verif Require Import Prelude ListFacts QFacts InductModel InductSpec InductProofs InductLoopProofs InductSelfProofs InductCoProofs InductFitProofs.
Import ListNotations.
Open Scope Z_scope.

(* ----- C42: selection helpers ----- *)

Theorem C42_select_confident argsort thr max_new scores sel :
  sorts_positions argsort -> (forall m, max_new = Some m -> 0 <= m) ->
  select_confident argsort thr max_new scores = Ok sel -> confident_selection thr max_new scores sel.
Proof. apply select_confident_spec. Qed.

Theorem C42_select_confident_torch topk thr max_new scores sel :
  picks_largest topk -> (forall m, max_new = Some m -> 0 <= m) ->
  select_confident_torch topk thr max_new scores = Ok sel -> confident_selection thr max_new scores sel.
Proof. apply select_confident_torch_spec. Qed.

(* it does return, as soon as there is at least one class *)
Theorem C42_select_confident_returns argsort thr max_new scores :
  (forall r, In r scores -> r <> []) -> exists sel, select_confident argsort thr max_new scores = Ok sel.
Proof. intros H. unfold select_confident. destruct (row_maxima_ok _ H) as [c ->]. cbn [bind]. eauto. Qed.

Theorem C42_select_top_per_class argsort k thr scores :
  sorts_positions argsort -> 0 <= k -> rectangular scores ->
  top_per_class_selection (Z.to_nat k) thr scores (select_top_per_class argsort k thr scores).
Proof. intros A K R. apply select_top_per_class_spec; auto. apply rectangular_columns, R. Qed.

Theorem C42_select_top_per_class_torch topk k thr scores sel :
  picks_largest topk -> 0 <= k -> rectangular scores ->
  select_top_per_class_torch topk k thr scores = Ok sel ->
  top_per_class_selection (Z.to_nat k) thr scores sel.
Proof. intros A K R. apply select_top_per_class_torch_spec; auto. apply rectangular_columns, R. Qed.

(* A negative bound is not refused: three rows are returned for max_new = -1. *)
Theorem C42_negative_max_new_refuted : exists scores sel,
  select_confident ref_argsortQ (Some (1#2)%Q) (Some (-1)) scores = Ok sel /\ length sel = 3%nat.
Proof.
  exists [[1]; [(9#10)%Q]; [(8#10)%Q]; [(7#10)%Q]]%Q, [0; 1; 2]%nat. split; [vm_compute; reflexivity|reflexivity].
Qed.

Definition ex_scores : list (list Q) :=
  [[9#10; 1#10]; [2#10; 8#10]; [6#10; 4#10]; [7#10; 3#10]; [1#10; 9#10]; [8#10; 2#10]]%Q.

(* Non-vacuity: with ties, a bound that cuts and one that does not. *)
Example C42_contracts_met : sorts_positions ref_argsortQ /\ picks_largest ref_topk /\ rectangular ex_scores.
Proof.
  split; [apply ref_argsortQ_sorts|]. split; [apply ref_topk_picks|]. intros r1 r2 H1 H2.
  cbn in H1, H2. repeat (destruct H1 as [<-|H1]; [repeat (destruct H2 as [<-|H2]; [reflexivity|]); destruct H2|]). destruct H1.
Qed.
Example C42_run : select_confident ref_argsortQ (Some (75#100)%Q) (Some 3) ex_scores = Ok [4; 0; 5]%nat.
Proof. vm_compute. reflexivity. Qed.
Example C42_run_torch : select_confident_torch ref_topk (Some (75#100)%Q) (Some 3) ex_scores = Ok [4; 0; 5]%nat.
Proof. vm_compute. reflexivity. Qed.
Example C42_run_top : select_top_per_class ref_argsortQ 2 (Some (65#100)%Q) ex_scores = [0; 1; 4; 5]%nat.
Proof. vm_compute. reflexivity. Qed.

(* ----- an example classifier -----
   Rows are integers; the score of class 1 grows with the row, and every training example makes the
   classifier more confident. *)
Definition ex_fit (_ : nat) (X : list Z) (y : list Z) : Z := lenZ X.
Definition ex_score (m x : Z) : list Q :=
  if x <? 0 then [ratio (m - x) (m - x + 1); ratio 1 (m - x + 1)]
  else [ratio 1 (m + x + 1); ratio (m + x) (m + x + 1)].
Definition ex_sc (m : Z) (X : list Z) : list (list Q) := map (ex_score m) X.
Definition ex_pred (m : Z) (X : list Z) : list Z := map (fun x => if x <? 0 then 7 else 8) X.

Example ex_classifier_contracts :
  (forall m X, length (ex_sc m X) = length X) /\ (forall m X, length (ex_pred m X) = length X) /\
  (forall m X, rectangular (ex_sc m X)) /\ (forall m X r, In r (ex_sc m X) -> r <> []).
Proof.
  split; [intros; apply map_length|]. split; [intros; apply map_length|].
  split.
  - intros m X r1 r2 H1 H2. apply in_map_iff in H1. apply in_map_iff in H2.
    destruct H1 as (x1 & <- & _). destruct H2 as (x2 & <- & _). unfold ex_score. destruct (x1 <? 0), (x2 <? 0); reflexivity.
  - intros m X r H. apply in_map_iff in H. destruct H as (x & <- & _). unfold ex_score. destruct (x <? 0); discriminate.
Qed.

(* ----- C57: pseudo-labelling ----- *)
Theorem C57_pseudo_label_history {X M} (d : X) (fit : nat -> list X -> list Z -> M) scores predict argsort
    max_iter thr max_new min_new Xl yl Xu r :
  (forall m rs, length (scores m rs) = length rs) -> (forall m rs, length (predict m rs) = length rs) ->
  sorts_positions argsort -> (forall m, max_new = Some m -> 0 <= m) ->
  pseudo_label_fit d fit scores predict argsort max_iter thr max_new min_new Xl yl Xu = Ok r ->
  exists bs,
    moves_rows_once d (Z.to_nat max_iter) Xl yl Xu bs (calls r) (leftover r) /\
    (forall k, (k < length bs)%nat ->
       pseudo_label_round d fit scores predict Xl yl Xu bs thr max_new min_new k) /\
    pseudo_label_stop d fit scores Xl yl Xu bs (Z.to_nat max_iter) thr max_new min_new.
Proof. intros S P A Hm H. now apply (pseudo_label_fit_spec d fit scores predict argsort Xl yl Xu S P A) in H. Qed.

Theorem C57_pseudo_label_returns {X M} (d : X) (fit : nat -> list X -> list Z -> M) scores predict argsort
    max_iter thr max_new min_new Xl yl Xu :
  (forall m rs r, In r (scores m rs) -> r <> []) -> Xl <> [] ->
  exists r, pseudo_label_fit d fit scores predict argsort max_iter thr max_new min_new Xl yl Xu = Ok r.
Proof. apply pseudo_label_fit_ok. Qed.

Theorem C57_rows_conserved {X M} (d : X) (fit : nat -> list X -> list Z -> M) scores predict argsort
    max_iter thr max_new min_new Xl yl Xu r :
  (forall m rs, length (scores m rs) = length rs) -> (forall m rs, length (predict m rs) = length rs) ->
  sorts_positions argsort -> (forall m, max_new = Some m -> 0 <= m) ->
  pseudo_label_fit d fit scores predict argsort max_iter thr max_new min_new Xl yl Xu = Ok r ->
  Permutation (Xl ++ Xu) (fst (last (calls r) ([], [])) ++ leftover r) /\
  (forall X' y', In (X', y') (calls r) -> exists Xp yp,
     X' = Xl ++ Xp /\ y' = yl ++ yp /\ length Xp = length yp /\ incl Xp Xu) /\
  (length (calls r) <= Z.to_nat max_iter + 1)%nat.
Proof.
  intros S P A Hm H. apply (pseudo_label_fit_spec d fit scores predict argsort Xl yl Xu S P A) in H; [|exact Hm].
  destruct H as (bs & H & _). apply moves_conserve in H. exact H.
Qed.

(* Three rounds: labelled rows make the classifier confident about rows it was not sure of. *)
Example C57_run : pseudo_label_fit 0 ex_fit ex_sc ex_pred ref_argsortQ 5 (85#100)%Q (Some 2) 1
    [-5; 5] [7; 8] [1; -4; 6; 3]
  = Ok {| calls := [([-5; 5], [7; 8]); ([-5; 5; -4; 6], [7; 8; 7; 8]);
                    ([-5; 5; -4; 6; 3], [7; 8; 7; 8; 8]);
                    ([-5; 5; -4; 6; 3; 1], [7; 8; 7; 8; 8; 8]);
                    ([-5; 5; -4; 6; 3; 1], [7; 8; 7; 8; 8; 8])]; leftover := [] |}.
Proof. vm_compute. reflexivity. Qed.

(* ----- C41: self-training ----- *)
Theorem C41_self_training_history {X M} (d : X) (fit : nat -> list X -> list Z -> M) scores predict
    sp group_u group_l Xl yl Xu r :
  (forall m rs, length (scores m rs) = length rs) ->
  (forall m, st_max_new sp = Some m -> 0 <= m) ->
  (forall g, group_u = Some g -> length g = length Xu) ->
  (forall g, group_l = Some g -> length g = length Xl) -> length yl = length Xl ->
  self_training_fit d fit scores predict sp group_u group_l Xl yl Xu = Ok r ->
  let groups := match st_use_group sp with Some false => None | _ => group_u end in
  let group_thr := match st_group_thr sp with Some t => Some t | None => st_thr sp end in
  exists bs,
    moves_rows_once d (Z.to_nat (st_max_iter sp)) Xl yl Xu bs (calls r) (leftover r) /\
    (forall k, (k < length bs)%nat ->
       self_training_round d fit scores predict Xl yl Xu bs (st_thr sp) (st_max_new sp) (st_min_new sp)
         (st_min_count sp) (st_min_fraction sp) group_thr groups group_l k) /\
    self_training_stop d fit scores predict Xl yl Xu bs (Z.to_nat (st_max_iter sp)) (st_thr sp)
      (st_max_new sp) (st_min_new sp) (st_min_count sp) (st_min_fraction sp) group_thr groups group_l.
Proof. apply self_training_fit_spec. Qed.

Theorem C41_self_training_returns {X M} (d : X) (fit : nat -> list X -> list Z -> M) scores predict
    sp group_u group_l Xl yl Xu :
  (forall m rs r, In r (scores m rs) -> r <> []) ->
  1 <= st_min_count sp -> (0 <= st_min_fraction sp <= 1)%Q -> Xl <> [] ->
  (st_use_group sp = Some true -> group_u <> None) ->
  exists r, self_training_fit d fit scores predict sp group_u group_l Xl yl Xu = Ok r.
Proof. apply self_training_fit_ok. Qed.

Theorem C41_rows_conserved {X M} (d : X) (fit : nat -> list X -> list Z -> M) scores predict
    sp group_u group_l Xl yl Xu r :
  (forall m rs, length (scores m rs) = length rs) ->
  (forall m, st_max_new sp = Some m -> 0 <= m) ->
  (forall g, group_u = Some g -> length g = length Xu) ->
  (forall g, group_l = Some g -> length g = length Xl) -> length yl = length Xl ->
  self_training_fit d fit scores predict sp group_u group_l Xl yl Xu = Ok r ->
  Permutation (Xl ++ Xu) (fst (last (calls r) ([], [])) ++ leftover r) /\
  (forall X' y', In (X', y') (calls r) -> exists Xp yp,
     X' = Xl ++ Xp /\ y' = yl ++ yp /\ length Xp = length yp /\ incl Xp Xu) /\
  (length (calls r) <= Z.to_nat (st_max_iter sp) + 1)%nat.
Proof.
  intros S Hm Hu Hl Hy H. destruct (self_training_fit_spec d fit scores predict _ _ _ _ _ _ _ S Hm Hu Hl Hy H) as (bs & A & _).
  apply moves_conserve in A. exact A.
Qed.

Definition ex_sp : st_spec := {| st_max_iter := 3; st_thr := Some (85#100)%Q; st_max_new := Some 3; st_min_new := 1;
  st_use_group := None; st_min_count := 2; st_min_fraction := (1#2)%Q; st_group_thr := None |}.
(* Row 1 is not confident enough but its group (with the labelled 5 and the confident 6) votes 8. *)
Example C41_run : self_training_fit 0 ex_fit ex_sc ex_pred ex_sp (Some [30; 31; 30; 32]) (Some [31; 30])
    [-5; 5] [7; 8] [1; -4; 6; 2]
  = Ok {| calls := [([-5; 5], [7; 8]); ([-5; 5; 1; 6; -4], [7; 8; 8; 8; 7]);
                    ([-5; 5; 1; 6; -4; 2], [7; 8; 8; 8; 7; 8]);
                    ([-5; 5; 1; 6; -4; 2], [7; 8; 8; 8; 7; 8])]; leftover := [] |}.
Proof. vm_compute. reflexivity. Qed.
Example C41_spec_met : (forall m, st_max_new ex_sp = Some m -> 0 <= m) /\ 1 <= st_min_count ex_sp /\ (0 <= st_min_fraction ex_sp <= 1)%Q.
Proof. split; [intros m [= <-]; lia|]. split; [cbn; lia|]. split; vm_compute; discriminate. Qed.

(* ----- C58: co-training ----- *)
Theorem C58_co_training_history {X1 X2 M1 M2} (d1 : X1) (d2 : X2)
    (fit1 : nat -> list X1 -> list Z -> M1) (fit2 : nat -> list X2 -> list Z -> M2)
    scores1 scores2 predict1 predict2 argsort max_iter k thr X1l X2l yl X1u X2u r :
  (forall m rs, length (scores1 m rs) = length rs) -> (forall m rs, length (scores2 m rs) = length rs) ->
  (forall m rs, rectangular (scores1 m rs)) -> (forall m rs, rectangular (scores2 m rs)) ->
  (forall m rs, length (predict1 m rs) = length rs) -> (forall m rs, length (predict2 m rs) = length rs) ->
  sorts_positions argsort -> 0 <= k ->
  co_fit d1 d2 fit1 fit2 scores1 scores2 predict1 predict2 argsort max_iter k thr X1l X2l yl X1u X2u = Ok r ->
  exists rs,
    co_moves d1 d2 X1l X2l yl X1u X2u rs (Z.to_nat max_iter)
      (co_calls1 r) (co_calls2 r) (co_left1 r) (co_left2 r) /\
    (forall j, (j < length rs)%nat ->
       co_round d1 d2 fit1 fit2 scores1 scores2 predict1 predict2 X1l X2l yl X1u X2u rs (Z.to_nat k) thr j) /\
    co_stop d1 d2 fit1 fit2 scores1 scores2 X1l X2l yl X1u X2u rs (Z.to_nat max_iter) (Z.to_nat k) thr.
Proof.
  intros S1 S2 R1 R2 P1 P2 A K H. unfold co_fit in H.
  destruct (_ || _) in H; [discriminate|]. destruct (Nat.eqb (length X1u) (length X2u)) eqn:E; [|discriminate].
  apply Nat.eqb_eq in E. cbn [negb] in H. injection H as <-.
  destruct (co_loop_spec d1 d2 fit1 fit2 scores1 scores2 predict1 predict2 argsort X1l X2l yl X1u X2u E S1 S2 R1 R2 P1 P2 A k thr K
    (Z.to_nat max_iter) [] [] [] _ (co_inv_init d1 d2 X1l X2l yl X1u X2u E)) as (rs & B & C & D).
  - intros j Hj. cbn in Hj. lia.
  - exists rs. split; [exact B|]. split; [exact C|exact D].
Qed.

(* The rows of view i left at the end together with the labelled rows: nothing is invented. *)
Theorem C58_rows_kept {X1 X2 M1 M2} (d1 : X1) (d2 : X2)
    (fit1 : nat -> list X1 -> list Z -> M1) (fit2 : nat -> list X2 -> list Z -> M2)
    scores1 scores2 predict1 predict2 argsort max_iter k thr X1l X2l yl X1u X2u r :
  (forall m rs, length (scores1 m rs) = length rs) -> (forall m rs, length (scores2 m rs) = length rs) ->
  (forall m rs, rectangular (scores1 m rs)) -> (forall m rs, rectangular (scores2 m rs)) ->
  (forall m rs, length (predict1 m rs) = length rs) -> (forall m rs, length (predict2 m rs) = length rs) ->
  sorts_positions argsort -> 0 <= k ->
  co_fit d1 d2 fit1 fit2 scores1 scores2 predict1 predict2 argsort max_iter k thr X1l X2l yl X1u X2u = Ok r ->
  length (co_calls1 r) = length (co_calls2 r) /\ (length (co_calls1 r) <= Z.to_nat max_iter + 1)%nat /\
  (forall X' y', In (X', y') (co_calls1 r) -> exists Xp yp, X' = X1l ++ Xp /\ y' = yl ++ yp /\ length Xp = length yp) /\
  (forall X' y', In (X', y') (co_calls2 r) -> exists Xp yp, X' = X2l ++ Xp /\ y' = yl ++ yp /\ length Xp = length yp).
Proof.
  intros S1 S2 R1 R2 P1 P2 A K H.
  destruct (C58_co_training_history d1 d2 fit1 fit2 scores1 scores2 predict1 predict2 argsort max_iter k thr X1l X2l yl X1u X2u r S1 S2 R1 R2 P1 P2 A K H)
    as (rs & (_ & _ & _ & _ & _ & _ & B1 & B2 & B3 & B4) & _).
  split; [congruence|]. split; [lia|]. split; intros X' y' I; apply (In_nth _ _ ([], [])) in I; destruct I as (j & Lj & E).
  - rewrite (proj1 (B4 j Lj)) in E. unfold co_training1, training_set in E. injection E as E1 E2.
    do 2 eexists. split; [symmetry; exact E1|]. split; [symmetry; exact E2|]. rewrite at_positions_length. unfold taken_rows. now rewrite !map_length.
  - rewrite B3 in Lj. rewrite (proj2 (B4 j Lj)) in E. unfold co_training2, training_set in E. injection E as E1 E2.
    do 2 eexists. split; [symmetry; exact E1|]. split; [symmetry; exact E2|]. rewrite at_positions_length. unfold taken_rows. now rewrite !map_length.
Qed.

(* A row chosen by both views in the same round goes to both training sets, possibly with different
   labels; here views disagree about row 0 (the label 8 from view 1, 7 from view 2). *)
Example C58_run : co_fit 0 0 ex_fit ex_fit ex_sc ex_sc ex_pred ex_pred ref_argsortQ 2 1 None
    [-5; 5] [-5; 5] [7; 8] [6; 1; -2] [-6; 2; -1]
  = Ok {| co_calls1 := [([-5; 5], [7; 8]); ([-5; 5; 6; 1], [7; 8; 7; 8]); ([-5; 5; 6; 1], [7; 8; 7; 8])];
          co_calls2 := [([-5; 5], [7; 8]); ([-5; 5; -6; -1], [7; 8; 8; 7]); ([-5; 5; -6; -1], [7; 8; 8; 7])];
          co_left1 := []; co_left2 := [] |}.
Proof. vm_compute. reflexivity. Qed.

Print Assumptions C42_select_confident.
Print Assumptions C42_select_confident_torch.
Print Assumptions C42_select_confident_returns.
Print Assumptions C42_select_top_per_class.
Print Assumptions C42_select_top_per_class_torch.
Print Assumptions C42_negative_max_new_refuted.
Print Assumptions C57_pseudo_label_history.
Print Assumptions C57_pseudo_label_returns.
Print Assumptions C57_rows_conserved.
Print Assumptions C41_self_training_history.
Print Assumptions C41_self_training_returns.
Print Assumptions C41_rows_conserved.
Print Assumptions C58_co_training_history.
Print Assumptions C58_rows_kept.
