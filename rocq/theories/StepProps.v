(* C110, C111, C112: label and tabular one-hot encoding, edge sparsification and edge weights. *)
From Coq Require Import String QArith ZifyBool ZifyNat.
From Verif Require Import Prelude ListFacts TokModel TokSpec TokProofs StepModel StepSpec StepProofs.
Local Open Scope string_scope.
Local Open Scope Z_scope.
Local Open Scope list_scope.
Local Notation length := List.length.

(* C110: on a vector of labels, there is one row per label and one column per labelled class, in
   ascending order; is_labeled tells the labelled rows; the row of a labelled point is 1 in the column
   of its class and 0 elsewhere, the row of an unlabelled point is 0 everywhere. *)
Theorem C110_onehot : forall unlabeled y,
  exists classes, labelled_classes_of unlabeled y classes /\
  let out := ensure_onehot unlabeled (Vector y) in
  length (o_rows out) = length y /\ length (o_labeled out) = length y /\
  forall i v, nth_error y i = Some v ->
    nth_error (o_labeled out) i = Some (negb (v =? unlabeled)) /\
    exists row, nth_error (o_rows out) i = Some row /\ length row = length classes /\
      forall k z, nth_error row k = Some z ->
        (z = 1 /\ v <> unlabeled /\ nth_error classes k = Some v) \/
        (z = 0 /\ (v = unlabeled \/ nth_error classes k <> Some v)).
Proof.
  intros u y. set (classes := uniqueZ (filter (fun v => negb (v =? u)) y)).
  assert (SC : StronglySorted Z.lt classes) by apply uniqueZ_ascending.
  assert (IC : forall c, In c classes <-> In c y /\ c <> u).
  { intros c. unfold classes. rewrite uniqueZ_In, filter_In. split; intros [A B]; split; auto; lia. }
  exists classes. split; [split; assumption|].
  unfold ensure_onehot. cbn [flatten o_rows o_labeled]. fold classes.
  split; [apply map_length|]. split; [apply map_length|].
  intros i v Hv. rewrite !nth_error_map, Hv. cbn [option_map]. split; [reflexivity|].
  destruct (Z.eqb_spec v u) as [->|N]; cbn [negb].
  - exists (repeat 0 (length classes)). split; [reflexivity|]. split; [apply repeat_length|].
    intros k z Hz. apply nth_error_repeat_some in Hz. right. split; [apply Hz|now left].
  - assert (Iv : In v classes) by (apply IC; split; [eapply nth_error_In; exact Hv|exact N]).
    eexists. split; [reflexivity|]. split; [rewrite update_len; apply repeat_length|].
    intros k z Hz. rewrite update_nth in Hz.
    destruct (Nat.eqb_spec (searchsorted classes v) k) as [E|E].
    + destruct (nth_error (repeat 0 (length classes)) k) as [w|]; [|discriminate]. injection Hz as <-.
      left. split; [reflexivity|]. split; [exact N|]. now apply searchsorted_pos.
    + apply nth_error_repeat_some in Hz. right. split; [apply Hz|]. right.
      intros H. apply E. now apply searchsorted_pos.
Qed.
(* C110: hence two labelled points have the same row exactly when they have the same label. *)
Theorem C110_same_row : forall unlabeled y i j v w,
  nth_error y i = Some v -> nth_error y j = Some w -> v <> unlabeled -> w <> unlabeled ->
  let rows := o_rows (ensure_onehot unlabeled (Vector y)) in
  (nth_error rows i = nth_error rows j <-> v = w).
Proof.
  intros u y i j v w Hi Hj Nv Nw rows. destruct (C110_onehot u y) as (classes & (SC & IC) & C). cbv zeta in C.
  destruct C as (_ & _ & C). fold rows in C.
  destruct (C i v Hi) as (_ & ri & Ri & Li & Ci). destruct (C j w Hj) as (_ & rj & Rj & Lj & Cj).
  assert (Iv : In v classes) by (apply IC; split; [eapply nth_error_In; exact Hi|exact Nv]).
  apply In_nth_error in Iv. destruct Iv as (k & Hk).
  assert (Lk : (k < length classes)%nat) by (apply nth_error_Some; congruence).
  rewrite Ri, Rj. split.
  - intros [= ->]. destruct (nth_error rj k) as [z|] eqn:Z.
    + destruct (Ci k z Z) as [(-> & _ & _)|(-> & [A|A])]; [|congruence|congruence].
      destruct (Cj k 1 Z) as [(_ & _ & A)|(A & _)]; [congruence|discriminate].
    + apply nth_error_None in Z. lia.
  - intros <-. f_equal. apply nth_ext with 0 0; [congruence|]. intros n Hn.
    destruct (nth_error ri n) as [z|] eqn:Z; [|apply nth_error_None in Z; lia].
    destruct (nth_error rj n) as [z'|] eqn:Z'; [|apply nth_error_None in Z'; lia].
    rewrite (nth_error_nth _ _ _ Z), (nth_error_nth _ _ _ Z').
    destruct (Ci n z Z) as [(-> & _ & A)|(-> & [A|A])], (Cj n z' Z') as [(-> & _ & B)|(-> & [B|B])]; try reflexivity; try congruence; exfalso; auto.
Qed.
Example C110_case :
  ensure_onehot (-1) (Vector [5; -1; 2; 5]) =
  {| o_rows := [[0; 1]; [0; 0]; [1; 0]; [0; 1]]; o_labeled := [true; false; true; true] |}.
Proof. vm_compute. reflexivity. Qed.
(* C110 does not extend to "column c is class c": with labels 0 and 2 the second column is class 2. *)
Theorem C110_column_number_refuted :
  exists y row, nth_error y 1 = Some 2 /\ nth_error (o_rows (ensure_onehot (-1) (Vector y))) 1 = Some row /\
    length row = 2%nat /\ nth_error row 1 = Some 1 /\ (forall v, In v y -> 0 <= v).
Proof. exists [0; 2], [0; 1]. repeat split; try reflexivity. cbn. intuition lia. Qed.
(* C110 does not extend to labels that are already one-hot: two points come back as four rows. *)
Theorem C110_already_onehot_refuted :
  exists m : list (list Z), (forall r, In r m -> length r = 2%nat /\ sumZ r = 1) /\ length m = 2%nat /\
    length (o_rows (ensure_onehot (-1) (Matrix m))) = 4%nat.
Proof. exists [[1; 0]; [0; 1]]. repeat split; try (cbn in H; destruct H as [<-|[<-|[]]]; reflexivity). Qed.

(* C111: tabular one-hot encoding. *)
Section C111.
Variables (V F : Type) (missing : V -> bool) (number : V -> option F) (text : V -> string).
Variable categories : list string -> list string.
(* the encoder lists each category of a column once *)
Hypothesis encoder : forall l, NoDup (categories l) /\ forall s, In s (categories l) <-> In s l.
Local Notation fit_step := (tab_fit V F missing number text categories).
Local Notation transform_step := (tab_transform V F missing number text).
Local Notation category := (category V missing text).
Local Notation numberlike := (numberlike V F missing number).

(* column j of the given rows contains only missing values and numbers *)
Definition numeric_in (rows : list (list V)) (j : nat) : Prop :=
  forall r v, In r rows -> nth_error r j = Some v -> missing v = true \/ number v <> None.
(* the number (or NaN) that stands for column j of row r *)
Definition number_at (r : list V) (j : nat) (o : cell_out F) : Prop :=
  exists v, nth_error r j = Some v /\
    ((missing v = true /\ o = Num None) \/ (missing v = false /\ exists x, number v = Some x /\ o = Num (Some x))).
(* the indicators that stand for column j of row r *)
Definition indicators_at (cats : nat -> list string) (r : list V) (j : nat) (o : list (cell_out F)) : Prop :=
  exists v, nth_error r j = Some v /\ o = map (fun s => Ind (String.eqb s (category v))) (cats j).

Lemma fit_shape a fit st :
  rectangular (a_width a) (a_rows a) -> fit_step a fit = Ok st ->
  exists rows, Forall2 (fun i r => designates (a_rows a) i r) fit rows /\ rectangular (a_width a) rows /\
    f_numeric st = filter (col_numeric V F missing number rows) (seq 0 (a_width a)) /\
    f_cat st = map (fun j => (j, col_cats V missing text categories rows j))
                 (filter (fun j => negb (col_numeric V F missing number rows j)) (seq 0 (a_width a))) /\
    (forall j, (j < a_width a)%nat -> (col_numeric V F missing number rows j = true <-> numeric_in rows j)) /\
    (forall j, (j < a_width a)%nat -> NoDup (col_cats V missing text categories rows j) /\
       forall s, In s (col_cats V missing text categories rows j) <->
         exists r v, In r rows /\ nth_error r j = Some v /\ s = category v).
Proof using encoder.
  intros R T. unfold tab_fit in T. destruct (take_rows (a_rows a) fit) as [rows|e] eqn:TR; cbn [bind] in T; [|discriminate].
  exists rows. split; [now apply take_rows_ok|].
  assert (RR : rectangular (a_width a) rows) by (intros r Hr; apply R; eapply take_rows_In; eassumption).
  split; [exact RR|]. apply split_columns_ok in T. destruct T as [T1 T2]. split; [exact T1|]. split; [exact T2|].
  split.
  - intros j Hj. destruct (column_total V (a_width a) rows j RR Hj) as (vs & C).
    unfold col_numeric. rewrite C, is_numeric_iff. unfold numeric_in, StepProofs.numberlike. split.
    + intros H r v Hr Hv. apply H. apply (column_In V rows j vs v C). eauto.
    + intros H v Hv. apply (column_In V rows j vs v C) in Hv. destruct Hv as (r & Hr & Hv). eauto.
  - intros j Hj. destruct (column_total V (a_width a) rows j RR Hj) as (vs & C).
    unfold col_cats. rewrite C. destruct (encoder (map category vs)) as [N I]. split; [exact N|].
    intros s. rewrite I, in_map_iff. split.
    + intros (v & <- & Hv). apply (column_In V rows j vs v C) in Hv. destruct Hv as (r & Hr & Hv). eauto.
    + intros (r & v & Hr & Hv & ->). exists v. split; [reflexivity|]. apply (column_In V rows j vs v C). eauto.
Qed.
Lemma sorted_seq_filter f n : StronglySorted lt (filter f (seq 0 n)).
Proof using.
  apply StronglySorted_filter. generalize 0%nat. induction n as [|n IH]; intros k; cbn; constructor; [apply IH|].
  apply Forall_forall. intros x Hx. apply in_seq in Hx. lia.
Qed.

(* C111: fitting succeeds exactly when the fit positions exist. *)
Theorem C111_fit_returns : forall a fit, rectangular (a_width a) (a_rows a) ->
  ((exists st, fit_step a fit = Ok st) <-> forall i, In i fit -> - lenZ (a_rows a) <= i < lenZ (a_rows a)).
Proof using.
  intros a fit R. rewrite <- take_rows_total. unfold tab_fit. split.
  - intros (st & H). destruct (take_rows (a_rows a) fit) as [rows|e]; [eauto|discriminate].
  - intros (rows & H). rewrite H. cbn [bind]. apply (split_columns_total V F missing number text categories (a_width a)).
    + intros r Hr. apply R. eapply take_rows_In; eassumption.
    + intros j Hj. apply in_seq in Hj. lia.
Qed.

(* C111: the columns of the output.  A column is numeric when the fit rows contain only numbers and
   missing values in it; the numeric columns come first, in order, as numbers (NaN for a missing
   value); then each other column, in order, as one indicator for each value the fit rows have in it,
   set for the value of the row. *)
Theorem C111_layout : forall a fit st ignore b out,
  rectangular (a_width a) (a_rows a) ->
  fit_step a fit = Ok st -> transform_step ignore (Some st) b = Ok out ->
  exists rows nums cats (values : nat -> list string),
    Forall2 (fun i r => designates (a_rows a) i r) fit rows /\
    selection nums (a_width a) /\ selection cats (a_width a) /\
    (forall j, (j < a_width a)%nat -> (In j nums <-> numeric_in rows j) /\ (In j cats <-> ~ numeric_in rows j)) /\
    (forall j, In j cats -> NoDup (values j) /\
       forall s, In s (values j) <-> exists r v, In r rows /\ nth_error r j = Some v /\ s = category v) /\
    length out = length (a_rows b) /\
    forall i r, nth_error (a_rows b) i = Some r ->
      exists xs bs, Forall2 (number_at r) nums xs /\ Forall2 (indicators_at values r) cats bs /\
        nth_error out i = Some (xs ++ concat bs).
Proof using encoder.
  intros a fit st ignore b out R Ft Tr.
  destruct (fit_shape a fit st R Ft) as (rows & D & RR & EN & EC & CN & CC).
  exists rows, (filter (col_numeric V F missing number rows) (seq 0 (a_width a))),
    (filter (fun j => negb (col_numeric V F missing number rows j)) (seq 0 (a_width a))),
    (col_cats V missing text categories rows).
  split; [exact D|].
  split; [split; [apply sorted_seq_filter|intros k Hk; apply filter_In in Hk; destruct Hk as [Hk _]; apply in_seq in Hk; lia]|].
  split; [split; [apply sorted_seq_filter|intros k Hk; apply filter_In in Hk; destruct Hk as [Hk _]; apply in_seq in Hk; lia]|].
  split.
  { intros j Hj. rewrite !filter_In, in_seq, <- (CN j Hj). destruct (col_numeric V F missing number rows j); cbn [negb]; intuition (try lia; try discriminate). }
  split.
  { intros j Hj. apply filter_In in Hj. destruct Hj as [Hj _]. apply in_seq in Hj. apply CC. lia. }
  rewrite <- EN. set (ccols := filter (fun j => negb (col_numeric V F missing number rows j)) (seq 0 (a_width a))) in *.
  unfold tab_transform in Tr. destruct (_ && _) in Tr; [discriminate|].
  destruct (map_result _ (f_numeric st)) as [nums|e] eqn:MN in Tr; cbn [bind] in Tr; [|discriminate].
  destruct (map_result _ (f_cat st)) as [cvs|e] eqn:MC in Tr; cbn [bind] in Tr; [|discriminate].
  destruct (_ && _) in Tr; [discriminate|].
  destruct (map_result _ cvs) as [blocks|e] eqn:MB in Tr; cbn [bind] in Tr; [|discriminate].
  injection Tr as <-. apply map_result_ok in MN, MC, MB.
  set (n := length (a_rows b)) in *.
  (* what the numeric blocks are *)
  assert (HN : Forall2 (fun j blk => length blk = n /\ forall i r, nth_error (a_rows b) i = Some r ->
                 exists o, number_at r j o /\ nth_error blk i = Some [o]) (f_numeric st) nums).
  { revert MN. generalize (f_numeric st). intros js. revert nums.
    intros nums H. induction H as [|j blk js nums E H IH]; [constructor|]. constructor; [|exact IH].
    destruct (StepModel.column V (a_rows b) j) as [vs|e] eqn:C; cbn [bind] in E; [|discriminate].
    destruct (numeric_column V F missing number vs) as [xs|e] eqn:NC; cbn [bind] in E; [|discriminate].
    injection E as <-. apply numeric_column_ok in NC. destruct NC as [NL ->].
    split; [rewrite !map_length; eapply column_length; exact C|].
    intros i r Hr. destruct (column_nth V _ _ _ _ _ C Hr) as (v & Hv & Hj).
    exists (Num (if missing v then None else number v)). split.
    - exists v. split; [exact Hj|]. apply nth_error_In in Hv. specialize (NL v Hv). destruct NL as [M|M].
      + left. rewrite M. auto.
      + destruct (missing v); [left; auto|right; split; [reflexivity|]]. destruct (number v) as [x|]; [eauto|congruence].
    - rewrite !nth_error_map, Hv. reflexivity. }
  (* what the indicator blocks are *)
  assert (HC : Forall2 (fun j blk => length blk = n /\ forall i r, nth_error (a_rows b) i = Some r ->
                 exists o, indicators_at (col_cats V missing text categories rows) r j o /\ nth_error blk i = Some o) ccols blocks).
  { rewrite EC in MC. clear - MC MB. revert cvs blocks MC MB. induction ccols as [|j js IH]; intros cvs blocks MC MB.
    - inversion MC; subst. inversion MB; subst. constructor.
    - cbn [map] in MC. inversion MC as [|? cv ? cvs' E MC']; subst. inversion MB as [|? blk ? blocks' E' MB']; subst.
      constructor; [|now apply (IH cvs')]. cbn [fst snd] in E.
      destruct (StepModel.column V (a_rows b) j) as [vs|e] eqn:C; cbn [bind] in E; [|discriminate].
      injection E as <-. cbn [fst snd] in E'. apply encode_column_ok in E'. destruct E' as [_ ->].
      split; [rewrite map_length; eapply column_length; exact C|].
      intros i r Hr. destruct (column_nth V _ _ _ _ _ C Hr) as (v & Hv & Hj).
      eexists. split; [exists v; split; [exact Hj|reflexivity]|]. rewrite nth_error_map, Hv. reflexivity. }
  assert (LB : forall blk, In blk (nums ++ blocks) -> length blk = n).
  { intros blk H. apply in_app_iff in H. destruct H as [H|H].
    - clear - HN H. induction HN as [|j b' js bs [L _] _ IH]; [destruct H|]. destruct H as [<-|H]; auto.
    - clear - HC H. induction HC as [|j b' js bs [L _] _ IH]; [destruct H|]. destruct H as [<-|H]; auto. }
  split; [now apply beside_length|].
  intros i r Hr. assert (I : (i < n)%nat) by (apply nth_error_Some; congruence).
  destruct (beside_nth F n (nums ++ blocks) i LB I) as (parts & P & N).
  apply Forall2_app_inv_l in P. destruct P as (p1 & p2 & P1 & P2 & ->).
  rewrite concat_app in N.
  assert (X : exists xs, Forall2 (number_at r) (f_numeric st) xs /\ concat p1 = xs).
  { clear - HN P1 Hr. revert p1 P1. induction HN as [|j blk js bs [_ H] HN IH]; intros p1 P1.
    - inversion P1; subst. exists []. split; [constructor|reflexivity].
    - inversion P1 as [|? p ? p1' E P1']; subst. destruct (IH p1' P1') as (xs & F2 & <-).
      destruct (H i r Hr) as (o & Ho & Eo). rewrite E in Eo. injection Eo as ->.
      exists (o :: concat p1'). split; [now constructor|reflexivity]. }
  destruct X as (xs & X & EX). exists xs, p2. split; [exact X|]. split; [|now rewrite N, EX].
  clear - HC P2 Hr. revert p2 P2. induction HC as [|j blk js bs [_ H] HC IH]; intros p2 P2.
  - inversion P2; subst. constructor.
  - inversion P2 as [|? p ? p2' E P2']; subst. constructor; [|now apply IH].
    destruct (H i r Hr) as (o & Ho & Eo). rewrite E in Eo. injection Eo as ->. exact Ho.
Qed.

(* C111: a block of indicators has exactly one 1 when the fit rows have that value in that column, and
   none otherwise. *)
Theorem C111_indicator : forall (cats : nat -> list string) r j o v,
  NoDup (cats j) -> indicators_at cats r j o -> nth_error r j = Some v ->
  let ones := length (filter (fun c => match c with Ind true => true | _ => false end) o) in
  (In (category v) (cats j) -> ones = 1%nat) /\ (~ In (category v) (cats j) -> ones = 0%nat).
Proof using number.
  intros cats r j o v ND (v' & Hv & ->) Hv'. assert (v' = v) as -> by congruence. cbv zeta.
  generalize dependent (cats j). intros l ND. induction l as [|s l IH]; cbn [map filter In].
  - cbn. tauto.
  - inversion ND as [|? ? NI ND']; subst. destruct (IH ND') as [I1 I2]. destruct (String.eqb_spec s (category v)) as [->|N].
    + cbn [length]. rewrite (I2 NI). split; [reflexivity|]. intros H. exfalso. apply H. now left.
    + split.
      * intros [E|H]; [congruence|auto].
      * intros H. apply I2. intro H'. apply H. now right.
Qed.

(* C111: when a table of the same width can be transformed: it has a column, every value in a numeric
   column is missing or a number, and if there is a categorical column it has a row and, unless
   unknown values are ignored, only values the fit rows have in that column. *)
Theorem C111_transform_returns : forall a fit st ignore b,
  rectangular (a_width a) (a_rows a) -> rectangular (a_width a) (a_rows b) -> fit_step a fit = Ok st ->
  ((exists out, transform_step ignore (Some st) b = Ok out) <->
   exists rows, Forall2 (fun i r => designates (a_rows a) i r) fit rows /\ (0 < a_width a)%nat /\
   forall j, (j < a_width a)%nat ->
     (numeric_in rows j -> numeric_in (a_rows b) j) /\
     (~ numeric_in rows j -> a_rows b <> [] /\
        (ignore = true \/ forall r v, In r (a_rows b) -> nth_error r j = Some v ->
           exists r' v', In r' rows /\ nth_error r' j = Some v' /\ category v' = category v))).
Proof using encoder.
  intros a fit st ignore b R Rb Ft.
  destruct (fit_shape a fit st R Ft) as (rows & D & RR & EN & EC & CN & CC).
  set (numb := col_numeric V F missing number rows) in *.
  assert (TOT : forall j, (j < a_width a)%nat -> exists vs, StepModel.column V (a_rows b) j = Ok vs)
    by (intros j Hj; now apply column_total with (a_width a)).
  assert (NUM : (exists nums, map_result (fun j => do vals <- StepModel.column V (a_rows b) j;
                   do xs <- numeric_column V F missing number vals; Ok (map (fun x => [@Num F x]) xs)) (f_numeric st) = Ok nums) <->
                (forall j, (j < a_width a)%nat -> numeric_in rows j -> numeric_in (a_rows b) j)).
  { rewrite map_result_total, EN. split.
    - intros H j Hj Hn. destruct (H j) as (y & E).
      { apply filter_In. split; [apply in_seq; lia|now apply CN]. }
      destruct (StepModel.column V (a_rows b) j) as [vs|e] eqn:C; cbn [bind] in E; [|discriminate].
      destruct (numeric_column V F missing number vs) as [xs|e] eqn:NC; cbn [bind] in E; [|discriminate].
      apply numeric_column_ok in NC. destruct NC as [NL _]. intros r v Hr Hv. apply NL.
      apply (column_In V _ _ _ v C). eauto.
    - intros H j Hj. apply filter_In in Hj. destruct Hj as [Hj Hn]. apply in_seq in Hj.
      destruct (TOT j ltac:(lia)) as (vs & C). rewrite C. cbn [bind].
      assert (NC : numeric_column V F missing number vs = Ok (map (fun v => if missing v then None else number v) vs)).
      { apply numeric_column_ok. split; [|reflexivity]. intros v Hv. apply (column_In V _ _ _ v C) in Hv.
        destruct Hv as (r & Hr & Hv). apply (H j ltac:(lia)) with (r := r); [apply CN; [lia|exact Hn]|exact Hr|exact Hv]. }
      rewrite NC. cbn [bind]. eauto. }
  assert (CAT : exists cvs, map_result (fun jc : nat * list string => do vals <- StepModel.column V (a_rows b) (fst jc); Ok (snd jc, vals)) (f_cat st) = Ok cvs).
  { apply map_result_total. intros [j cs] Hj. rewrite EC in Hj. apply in_map_iff in Hj. destruct Hj as (j' & [= <- <-] & Hj).
    apply filter_In in Hj. destruct Hj as [Hj _]. apply in_seq in Hj. cbn [fst snd].
    destruct (TOT j' ltac:(lia)) as (vs & C). rewrite C. cbn [bind]. eauto. }
  destruct CAT as (cvs & ECV).
  assert (CVI : forall cs vs, In (cs, vs) cvs <-> exists j, (j < a_width a)%nat /\ numb j = false /\
                  cs = col_cats V missing text categories rows j /\ StepModel.column V (a_rows b) j = Ok vs).
  { intros cs vs. pose proof ECV as E. apply map_result_ok in E. rewrite EC in E.
    assert (Q : forall js cv, Forall2 (fun x y => (do vals <- StepModel.column V (a_rows b) (fst x); Ok (snd x, vals)) = Ok y)
                  (map (fun j => (j, col_cats V missing text categories rows j)) js) cv ->
               (In (cs, vs) cv <-> exists j, In j js /\ cs = col_cats V missing text categories rows j /\ StepModel.column V (a_rows b) j = Ok vs)).
    { induction js as [|j js IH]; intros cv H; cbn [map] in H; inversion H as [|? y ? cv' Ey H']; subst.
      - split; [intros []|intros (j & [] & _)].
      - cbn [fst snd] in Ey. destruct (StepModel.column V (a_rows b) j) as [ws|e] eqn:C; cbn [bind] in Ey; [|discriminate].
        injection Ey as <-. cbn [In]. rewrite (IH cv' H'). split.
        + intros [[= <- <-]|(k & Hk & E1 & E2)]; [exists j; auto|exists k; auto].
        + intros (k & [<-|Hk] & E1 & E2); [left; congruence|right; eauto]. }
    rewrite (Q _ _ E). split.
    - intros (j & Hj & E1 & E2). apply filter_In in Hj. destruct Hj as [Hj Hn]. apply in_seq in Hj.
      exists j. split; [lia|]. split; [now destruct (numb j)|auto].
    - intros (j & Hj & Hn & E1 & E2). exists j. split; [|auto]. apply filter_In. split; [apply in_seq; lia|now rewrite Hn]. }
  assert (BLK : (exists blocks, map_result (fun cv => encode_column V F missing text ignore (fst cv) (snd cv)) cvs = Ok blocks) <->
     (forall j, (j < a_width a)%nat -> ~ numeric_in rows j -> ignore = true \/
        forall r v, In r (a_rows b) -> nth_error r j = Some v ->
           exists r' v', In r' rows /\ nth_error r' j = Some v' /\ category v' = category v)).
  { rewrite map_result_total. split.
    - intros H j Hj Hn. destruct (TOT j Hj) as (vs & C).
      assert (numb j = false) as B by (destruct (numb j) eqn:B; [exfalso; now apply Hn, CN|reflexivity]).
      destruct (H (col_cats V missing text categories rows j, vs)) as (y & E); [apply CVI; eauto|].
      cbn [fst snd] in E. apply encode_column_ok in E. destruct E as [[E|E] _]; [now left|right].
      intros r v Hr Hv. assert (Iv : In v vs) by (apply (column_In V _ _ _ v C); eauto).
      specialize (E v Iv). apply (proj2 (CC j Hj)) in E. destruct E as (r' & v' & H1 & H2 & H3). eauto.
    - intros H [cs vs] Hcv. apply CVI in Hcv. destruct Hcv as (j & Hj & Hn & -> & C). cbn [fst snd].
      assert (Nn : ~ numeric_in rows j) by (intros X; apply CN in X; [congruence|exact Hj]).
      exists (map (block_of V F missing text (col_cats V missing text categories rows j)) vs).
      apply encode_column_ok. split; [|reflexivity]. destruct (H j Hj Nn) as [E|E]; [now left|right].
      intros v Hv. apply (column_In V _ _ _ v C) in Hv. destruct Hv as (r & Hr & Hv).
      destruct (E r v Hr Hv) as (r' & v' & H1 & H2 & H3). apply (proj2 (CC j Hj)). eauto. }
  assert (LC : length (f_cat st) = 0%nat <-> forall j, (j < a_width a)%nat -> numeric_in rows j).
  { rewrite EC, map_length. split.
    - intros H j Hj. apply CN; [exact Hj|]. destruct (numb j) eqn:B; [reflexivity|]. exfalso.
      assert (I : In j (filter (fun j => negb (numb j)) (seq 0 (a_width a)))) by (apply filter_In; split; [apply in_seq; lia|now rewrite B]).
      destruct (filter (fun j => negb (numb j)) (seq 0 (a_width a))); [destruct I|discriminate].
    - intros H. rewrite filter_all_false; [reflexivity|]. intros j Hj. apply in_seq in Hj.
      rewrite (proj2 (CN j ltac:(lia))) by (apply H; lia). reflexivity. }
  assert (LN : length (f_numeric st) = 0%nat /\ length (f_cat st) = 0%nat <-> a_width a = 0%nat).
  { split.
    - intros [L1 L2]. destruct (a_width a) as [|w] eqn:W; [reflexivity|exfalso].
      assert (I : In 0%nat (f_numeric st)).
      { rewrite EN. apply filter_In. split; [apply in_seq; lia|]. apply CN; [lia|]. apply LC; [exact L2|lia]. }
      destruct (f_numeric st); [destruct I|discriminate].
    - intros W. rewrite EN, EC, W. split; reflexivity. }
  unfold tab_transform.
  destruct (Nat.eqb (length (f_numeric st)) 0 && Nat.eqb (length (f_cat st)) 0) eqn:B0.
  { split; [intros (out & H); discriminate|]. intros (rows' & _ & W & _). exfalso.
    apply andb_true_iff in B0. destruct B0 as [B1 B2]. apply Nat.eqb_eq in B1, B2. destruct LN as [LN _]. specialize (LN (conj B1 B2)). lia. }
  assert (W : (0 < a_width a)%nat).
  { destruct (a_width a) as [|w] eqn:W; [|lia]. exfalso. destruct LN as [_ LN]. destruct (LN eq_refl) as [L1 L2]. rewrite L1, L2 in B0. discriminate. }
  rewrite ECV. cbn [bind].
  assert (NE : negb (Nat.eqb (length (f_cat st)) 0) && Nat.eqb (length (a_rows b)) 0 = false <->
               (forall j, (j < a_width a)%nat -> ~ numeric_in rows j -> a_rows b <> [])).
  { split.
    - intros B j Hj Hn Eb. rewrite Eb in B. cbn [length Nat.eqb] in B. rewrite andb_true_r in B.
      apply negb_false_iff, Nat.eqb_eq in B. apply Hn. now apply LC.
    - intros H. apply andb_false_iff. destruct (Nat.eqb_spec (length (f_cat st)) 0) as [E|E]; [now left|right].
      apply Nat.eqb_neq. intros L. apply E, LC. intros j Hj. apply CN; [exact Hj|]. destruct (numb j) eqn:Bj; [reflexivity|].
      exfalso. apply (H j Hj); [intros X; apply CN in X; [congruence|exact Hj]|].
      destruct (a_rows b); [reflexivity|discriminate]. }
  split.
  - intros (out & T). exists rows. split; [exact D|]. split; [exact W|].
    destruct (map_result _ (f_numeric st)) as [nums|e] eqn:MN in T; cbn [bind] in T; [|discriminate].
    destruct (negb (Nat.eqb (length (f_cat st)) 0) && Nat.eqb (length (a_rows b)) 0) eqn:B1; [discriminate|].
    destruct (map_result _ cvs) as [blocks|e] eqn:MB in T; cbn [bind] in T; [|discriminate].
    intros j Hj. split.
    + intros Hn. apply (proj1 NUM); [eauto|exact Hj|exact Hn].
    + intros Hn. split; [apply (proj1 NE eq_refl j Hj Hn)|]. apply (proj1 BLK); [eauto|exact Hj|exact Hn].
  - intros (rows' & D' & _ & H). rewrite (chosen_unique _ _ _ _ D' D) in H. clear D' rows'.
    destruct (proj2 NUM) as (nums & MN); [intros j Hj; apply H; exact Hj|]. rewrite MN. cbn [bind].
    rewrite (proj2 NE) by (intros j Hj Hn; apply (H j Hj); exact Hn).
    destruct (proj2 BLK) as (blocks & MB); [intros j Hj Hn; apply (H j Hj); exact Hn|]. rewrite MB. cbn [bind]. eauto.
Qed.

(* C111: in particular a table made of rows of the fit selection can be transformed, when it has a row
   and a column. *)
Theorem C111_fit_rows_return : forall a fit st ignore b rows,
  rectangular (a_width a) (a_rows a) -> fit_step a fit = Ok st -> (0 < a_width a)%nat -> a_rows b <> [] ->
  Forall2 (fun i r => designates (a_rows a) i r) fit rows -> incl (a_rows b) rows ->
  exists out, transform_step ignore (Some st) b = Ok out.
Proof using encoder.
  intros a fit st ignore b rows R Ft W NB D I.
  assert (RR : rectangular (a_width a) rows).
  { intros r Hr. apply R. apply take_rows_ok in D. eapply take_rows_In; eassumption. }
  apply (C111_transform_returns a fit st ignore b R); [intros r Hr; apply RR, I, Hr|exact Ft|].
  exists rows. split; [exact D|]. split; [exact W|]. intros j Hj. split.
  - intros H r v Hr. apply H, I, Hr.
  - intros _. split; [exact NB|]. right. intros r v Hr Hv. exists r, v. auto.
Qed.

(* C111: fitting looks only at the rows at the fit positions. *)
Theorem C111_fit_rows_only : forall a a' fit,
  a_width a' = a_width a -> lenZ (a_rows a') = lenZ (a_rows a) ->
  (forall i r, In i fit -> designates (a_rows a) i r -> designates (a_rows a') i r) ->
  fit_step a' fit = fit_step a fit.
Proof using.
  intros a a' fit W L H. unfold tab_fit. rewrite W.
  assert (E : take_rows (a_rows a') fit = take_rows (a_rows a) fit); [|now rewrite E].
  clear W. induction fit as [|i fit IH]; [reflexivity|]. cbn [take_rows].
  rewrite IH by (intros j x Hj; apply H; now right).
  destruct (take_one (a_rows a) i) as [x|err] eqn:T.
  - apply take_one_ok in T. apply H in T; [|now left]. apply take_one_ok in T. now rewrite T.
  - assert (E : take_one (a_rows a') i = Err err); [|now rewrite E].
    unfold take_one in T |- *. rewrite L. destruct ((i <? - lenZ (a_rows a)) || (lenZ (a_rows a) <=? i)) eqn:B; [exact T|].
    exfalso. destruct (take_one_total (a_rows a) i) as (x & X); [lia|]. unfold take_one in X. rewrite B in X. congruence.
Qed.
End C111.

(* A small instance: values are strings, numbers are the decimal digits, "?" is missing. *)
Definition ex_missing (v : string) : bool := (v =? "?")%string.
Definition ex_number (v : string) : option Z :=
  if (v =? "1")%string then Some 1 else if (v =? "2")%string then Some 2 else None.
Definition ex_text (v : string) : string := v.
Definition ex_categories (l : list string) : list string := nodup string_dec l.
Definition ex_table : array2 string :=
  {| a_width := 2; a_rows := [["red"; "1"]; ["blue"; "?"]; ["?"; "2"]; ["green"; "2"]; ["red"; "big"]] |}.
Lemma ex_encoder l : NoDup (ex_categories l) /\ forall s, In s (ex_categories l) <-> In s l.
Proof. split; [apply NoDup_nodup|intros s; apply nodup_In]. Qed.
Example C111_case :
  rectangular (a_width ex_table) (a_rows ex_table) /\
  exists st out, tab_fit string Z ex_missing ex_number ex_text ex_categories ex_table [0; 1; 2] = Ok st /\
    tab_transform string Z ex_missing ex_number ex_text true (Some st)
      {| a_width := 2; a_rows := [["red"; "1"]; ["?"; "?"]; ["green"; "2"]] |} = Ok out /\
    out = [[Num (Some 1); Ind true; Ind false; Ind false];
           [Num None; Ind false; Ind false; Ind true];
           [Num (Some 2); Ind false; Ind false; Ind false]].
Proof.
  split; [cbn; intros r [<-|[<-|[<-|[<-|[<-|[]]]]]]; reflexivity|].
  eexists. eexists. split; [vm_compute; reflexivity|]. split; vm_compute; reflexivity.
Qed.
(* C111 does not extend to rows outside the fit selection: a column that is numeric on the fit rows
   makes the transformation of the same table fail when another row has a word in it. *)
Theorem C111_other_rows_refuted :
  exists st, tab_fit string Z ex_missing ex_number ex_text ex_categories ex_table [0; 1; 2] = Ok st /\
    tab_transform string Z ex_missing ex_number ex_text true (Some st) ex_table = Err ValueError.
Proof. eexists. split; vm_compute; reflexivity. Qed.
(* C111 does not extend to telling values apart: a missing value and the word __missing__ have the
   same indicators. *)
Theorem C111_missing_word_refuted :
  exists a st out row, tab_fit string Z ex_missing ex_number ex_text ex_categories a [0; 1; 2] = Ok st /\
    tab_transform string Z ex_missing ex_number ex_text true (Some st) a = Ok out /\
    nth_error (a_rows a) 0 = Some ["?"] /\ nth_error (a_rows a) 1 = Some ["__missing__"] /\
    nth_error out 0 = Some row /\ nth_error out 1 = Some row.
Proof.
  exists {| a_width := 1; a_rows := [["?"]; ["__missing__"]; ["red"]] |}. eexists. eexists. eexists.
  split; [vm_compute; reflexivity|]. split; [vm_compute; reflexivity|].
  split; [reflexivity|]. split; [reflexivity|]. split; vm_compute; reflexivity.
Qed.

(* C112: edge sparsification refuses a fraction outside (0, 1]. *)
Theorem C112_fraction : forall (W : Type) draws pick frac ei (w : option (list W)),
  (frac <= 0 \/ 1 < frac)%Q -> edge_sparsify draws pick frac ei w = Err PreprocessError.
Proof.
  intros W draws pick frac ei w H. unfold edge_sparsify.
  destruct (Qle_bool frac 0) eqn:A, (Qle_bool frac 1) eqn:B; cbn [negb andb]; try reflexivity.
  exfalso. apply Qle_bool_iff in B. destruct H as [H|H].
  - apply Qle_bool_iff in H. congruence.
  - apply (Qlt_not_le _ _ H B).
Qed.
(* C112: on an edge list of shape (2, E), or of shape (E, 2) with E different from 2, the result is the
   list of the edges at some positions, in order, and the weights at the same positions; at least one
   edge is kept when there is one, and all of them when the fraction is 1. *)
Theorem C112_kept : forall (W : Type) draws pick frac ei es (w : option (list W)),
  (forall n, length (draws n) = n /\ forall u, In u (draws n) -> 0 <= u < 1)%Q ->
  (forall n, 0 < n -> 0 <= pick n < n) -> (0 < frac <= 1)%Q ->
  (forall l, w = Some l -> length l = length es) ->
  edges_2E ei es \/ (edges_E2 ei es /\ length es <> 2%nat) ->
  exists ei' es' w' kept, edge_sparsify draws pick frac ei w = Ok (ei', w') /\
    (edges_2E ei es -> edges_2E ei' es') /\ (edges_E2 ei es /\ length es <> 2%nat -> edges_E2 ei' es') /\
    selection kept (length es) /\ picks kept es es' /\
    match w, w' with Some l, Some l' => picks kept l l' | None, None => True | _, _ => False end /\
    (es <> [] -> es' <> []) /\ ((frac == 1)%Q -> es' = es).
Proof.
  intros W draws pick frac ei es w D P FR LW SH.
  set (take := choose draws pick frac (length es)).
  assert (DL : forall n, length (draws n) = n) by (intros n; apply D).
  assert (LT : length take = length es) by (apply choose_length, DL).
  assert (FRB : negb (negb (Qle_bool frac 0) && Qle_bool frac 1) = false).
  { destruct FR as [F0 F1]. apply Qle_bool_iff in F1. rewrite F1.
    destruct (Qle_bool frac 0) eqn:A; [|reflexivity]. apply Qle_bool_iff in A. exfalso. apply (Qlt_not_le _ _ F0 A). }
  assert (TWO : forall es0, edges_2E ei es0 -> length ei = 2%nat /\ length (nth 0 ei []) = length es0).
  { intros es0 (src & dst & -> & L & ->). cbn. rewrite combine_length. lia. }
  assert (ONE : edges_E2 ei es -> length ei = length es) by (intros ->; apply map_length).
  set (two := Nat.eqb (length ei) 2).
  set (out := if two then map (keep take) ei else keep take ei).
  assert (RUN : edge_sparsify draws pick frac ei w = Ok (out, option_map (keep take) w)).
  { unfold edge_sparsify. rewrite FRB. fold two.
    assert (EE : (if two then length (nth 0 ei []) else length ei) = length es).
    { destruct SH as [S|[S N]].
      - destruct (TWO _ S) as [S1 S2]. unfold two. rewrite S1. exact S2.
      - unfold two. rewrite (ONE S). destruct (Nat.eqb_spec (length es) 2); [contradiction|reflexivity]. }
    rewrite EE. fold take. fold out. destruct w as [l|]; [|reflexivity].
    rewrite LT, (LW l eq_refl), Nat.eqb_refl. reflexivity. }
  assert (ALL : (frac == 1)%Q -> forall (A : Type) (l : list A), length l = length es -> keep take l = l).
  { intros F1 A l L. assert (TT : forall b, In b take -> b = true).
    { intros b Hb. unfold take, choose in Hb.
      assert (MT : forall b', In b' (map (fun u => negb (Qle_bool frac u)) (draws (length es))) -> b' = true).
      { intros b' H. apply in_map_iff in H. destruct H as (u & <- & Hu). apply (proj2 (D _)) in Hu.
        destruct (Qle_bool frac u) eqn:B; [|reflexivity]. apply Qle_bool_iff in B. rewrite F1 in B.
        exfalso. apply (Qlt_not_le u 1); [apply Hu|exact B]. }
      destruct (negb _ && negb _); [|now apply MT].
      apply In_nth_error in Hb. destruct Hb as (k & Hk). rewrite update_nth in Hk.
      destruct (Nat.eqb _ k).
      - destruct (nth_error (map _ _) k); [|discriminate]. cbn in Hk. congruence.
      - apply nth_error_In in Hk. now apply MT. }
    assert (L' : length take = length l) by congruence. clear - TT L'.
    revert l L'. induction take as [|b t IH]; intros l L'; destruct l as [|x l]; cbn [length] in L'; try lia; [reflexivity|].
    cbn [keep]. rewrite (TT b) by now left. f_equal. apply IH; [intros b' Hb'; apply TT; now right|lia]. }
  exists out, (keep take es), (option_map (keep take) w), (positions_from 0 take).
  split; [exact RUN|]. split; [|split; [|split; [|split; [|split; [|split]]]]].
  - intros S. destruct (TWO _ S) as [S1 _]. destruct S as (src & dst & Ee & L & Es). unfold out, two. rewrite S1. cbn [Nat.eqb].
    exists (keep take src), (keep take dst). subst ei. split; [reflexivity|]. split; [now apply keep_length|].
    rewrite Es. apply keep_combine.
  - intros [S N]. unfold out, two. rewrite (ONE S). destruct (Nat.eqb_spec (length es) 2); [contradiction|].
    unfold edges_E2 in *. rewrite S. apply keep_map.
  - split; [apply positions_sorted|]. intros k Hk. apply positions_bound in Hk. lia.
  - apply (keep_picks 0 take es []); [reflexivity|exact LT].
  - destruct w as [l|]; cbn [option_map]; [|exact I].
    apply (keep_picks 0 take l []); [reflexivity|]. rewrite (LW l eq_refl). exact LT.
  - intros NE. assert (Pos : (0 < length es)%nat) by (destruct es; [congruence|cbn; lia]).
    destruct (choose_some draws pick frac (length es) DL P Pos) as (p & Hp). fold take in Hp.
    assert (I : In p (positions_from 0 take)) by (apply positions_In; rewrite Nat.sub_0_r; split; [lia|exact Hp]).
    pose proof (keep_picks 0 take es [] eq_refl LT) as K. intros E. rewrite E in K. inversion K as [K'|]. rewrite <- K' in I. destruct I.
  - intros F1. apply ALL; [exact F1|reflexivity].
Qed.
(* C112: the weights attached to a graph without weights: one per edge, for both shapes. *)
Theorem C112_attach : forall (W : Type) (value : W) ei es,
  edges_2E ei es \/ edges_E2 ei es ->
  (forall w, attach_weight value (Some w) ei = w) /\
  length (attach_weight value None ei) = length es /\ forall x, In x (attach_weight value None ei) -> x = value.
Proof.
  intros W value ei es SH. split; [reflexivity|]. cbn [attach_weight]. rewrite repeat_length. split; [|intros x; apply repeat_spec].
  destruct SH as [(src & dst & -> & L & ->)|S].
  - cbn. rewrite combine_length. lia.
  - unfold edges_E2 in S. destruct (Nat.eqb_spec (length ei) 2) as [E|E]; [|subst ei; apply map_length].
    rewrite S in E |- *. rewrite map_length in E. destruct es as [|e [|e' [|? ?]]]; cbn in E; try lia. reflexivity.
Qed.
Example C112_case :
  let draws := fun n => repeat (1 # 2)%Q n in let pick := fun n : Z => n - 1 in
  (forall n, length (draws n) = n /\ forall u, In u (draws n) -> 0 <= u < 1)%Q /\
  (forall n, 0 < n -> 0 <= pick n < n) /\
  edges_2E [[0; 1; 2]; [1; 2; 0]] [(0, 1); (1, 2); (2, 0)] /\
  edge_sparsify draws pick (1 # 4) [[0; 1; 2]; [1; 2; 0]] (Some [5; 6; 7]) = Ok ([[2]; [0]], Some [7]).
Proof.
  cbv zeta. split; [|split; [intros; lia|split; [|reflexivity]]].
  - intros n. split; [apply repeat_length|]. intros u H. apply repeat_spec in H. subst u. split; [discriminate|reflexivity].
  - exists [0; 1; 2], [1; 2; 0]. repeat split.
Qed.
(* C112 does not extend to two edges stored as rows: the array is read as (2, E) and the result is an
   edge that was not in the graph. *)
Theorem C112_two_rows_refuted :
  exists draws pick frac ei es ei',
    (forall n, length (draws n) = n /\ forall u, In u (draws n) -> 0 <= u < 1)%Q /\
    (forall n, 0 < n -> 0 <= pick n < n) /\ (0 < frac <= 1)%Q /\
    edges_E2 ei es /\ edge_sparsify draws pick frac ei (@None (list Z)) = Ok (ei', None) /\
    ei' = [[0]; [2]] /\ es = [(0, 1); (2, 3)].
Proof.
  exists (fun n => repeat (1 # 2)%Q n), (fun _ => 0), (1 # 4), [[0; 1]; [2; 3]], [(0, 1); (2, 3)]. eexists.
  split; [|split; [intros; lia|split; [split; [reflexivity|discriminate]|split; [reflexivity|split; [reflexivity|split; reflexivity]]]]].
  intros n. split; [apply repeat_length|]. intros u H. apply repeat_spec in H. subst u. split; [discriminate|reflexivity].
Qed.
(* C112 does not extend to undirected graphs: an edge can lose its reverse. *)
Theorem C112_undirected_refuted :
  exists draws pick frac ei', 
    (forall n, length (draws n) = n /\ forall u, In u (draws n) -> 0 <= u < 1)%Q /\
    (forall n, 0 < n -> 0 <= pick n < n) /\ (0 < frac <= 1)%Q /\
    edge_sparsify draws pick frac [[0; 1]; [1; 0]] (@None (list Z)) = Ok (ei', None) /\ ei' = [[0]; [1]].
Proof.
  exists (fun n => repeat (1 # 2)%Q n), (fun _ => 0), (1 # 4). eexists.
  split; [|split; [intros; lia|split; [split; [reflexivity|discriminate]|split; reflexivity]]].
  intros n. split; [apply repeat_length|]. intros u H. apply repeat_spec in H. subst u. split; [discriminate|reflexivity].
Qed.

Print Assumptions C110_onehot.
Print Assumptions C110_same_row.
Print Assumptions C110_column_number_refuted.
Print Assumptions C110_already_onehot_refuted.
Print Assumptions C111_fit_returns.
Print Assumptions C111_layout.
Print Assumptions C111_indicator.
Print Assumptions C111_transform_returns.
Print Assumptions C111_fit_rows_return.
Print Assumptions C111_fit_rows_only.
Print Assumptions C111_other_rows_refuted.
Print Assumptions C111_missing_word_refuted.
Print Assumptions C112_fraction.
Print Assumptions C112_kept.
Print Assumptions C112_attach.
Print Assumptions C112_two_rows_refuted.
Print Assumptions C112_undirected_refuted.
