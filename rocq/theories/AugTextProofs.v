From Coq Require Import List ZArith Lia Bool QArith Permutation Lqa ZifyBool ZifyNat.
From Verif Require Import Prelude ListFacts SampleServiceProofs AugModel AugSpec.
Import ListNotations.
Open Scope Z_scope.

(* ----- rationals as booleans ----- *)
Lemma Qlt_bool_iff a b : Qlt_bool a b = true <-> (a < b)%Q.
Proof. unfold Qlt_bool. rewrite negb_true_iff. split; [intros H; apply Qnot_le_lt; intros L; apply Qle_bool_iff in L; congruence|]. intros H. destruct (Qle_bool b a) eqn:E; [|reflexivity]. apply Qle_bool_iff in E. lra. Qed.
Lemma Qlt_bool_false a b : Qlt_bool a b = false <-> (b <= a)%Q.
Proof. unfold Qlt_bool. rewrite negb_false_iff. apply Qle_bool_iff. Qed.
Lemma Qle_bool_false a b : Qle_bool a b = false <-> (b < a)%Q.
Proof. split; [intros H; apply Qnot_le_lt; intros L; apply Qle_bool_iff in L; congruence|]. intros H. destruct (Qle_bool a b) eqn:E; [|reflexivity]. apply Qle_bool_iff in E. lra. Qed.
Lemma in01_iff p : in01 p = true <-> (0 <= p /\ p <= 1)%Q.
Proof. unfold in01. rewrite andb_true_iff, !Qle_bool_iff. reflexivity. Qed.
Lemma in01_ok p : (0 <= p)%Q -> (p <= 1)%Q -> in01 p = true.
Proof. intros. now apply in01_iff. Qed.
Lemma Qeq_bool_false a b : Qeq_bool a b = false <-> ~ (a == b)%Q.
Proof. split; [intros H E; apply Qeq_bool_iff in E; congruence|]. intros H. destruct (Qeq_bool a b) eqn:E; [|reflexivity]. apply Qeq_bool_iff in E. contradiction. Qed.

(* ----- subsequences ----- *)
Lemma sub_refl {A} (l : list A) : subsequence l l.
Proof. induction l; [constructor|now apply sub_take]. Qed.
Lemma sub_empty {A} (l : list A) : subsequence [] l.
Proof. induction l; constructor; auto. Qed.
Lemma sub_single {A} (l : list A) i d : (i < length l)%nat -> subsequence [nth i l d] l.
Proof. revert i. induction l as [|a l IH]; intros [|i] H; cbn in *; try lia; [apply sub_take, sub_empty|apply sub_skip, IH; lia]. Qed.
Lemma sub_In {A} (l1 l2 : list A) : subsequence l1 l2 -> forall a, In a l1 -> In a l2.
Proof. induction 1; intros x Hx; [destruct Hx|right; auto|]. destruct Hx as [->|Hx]; [now left|right; auto]. Qed.
Lemma sub_filter {A} (f : A -> bool) l : subsequence (filter f l) l.
Proof. induction l as [|a l IH]; cbn; [constructor|]. destruct (f a); [now apply sub_take|now apply sub_skip]. Qed.
Lemma sub_map {A B} (f : A -> B) l1 l2 : subsequence l1 l2 -> subsequence (map f l1) (map f l2).
Proof. induction 1; cbn; [constructor|now apply sub_skip|now apply sub_take]. Qed.

(* ----- split and join ----- *)
Section Words.
Variable is_space : Z -> bool.

Lemma split_aux_words : forall s cur, (forall c, In c cur -> is_space c = false) ->
  words is_space (rev cur ++ s) (split_aux is_space cur s).
Proof.
  induction s as [|c s IH]; intros cur Hc; cbn [split_aux].
  - rewrite app_nil_r. destruct cur as [|a cur].
    + constructor. intros c [].
    + replace (rev (a :: cur)) with ([] ++ rev (a :: cur) ++ []) at 1 by (cbn; now rewrite app_nil_r).
      constructor; [intros x []| | |left; reflexivity|constructor; intros x []].
      * intros E. apply (f_equal (@length Z)) in E. rewrite rev_length in E. discriminate.
      * intros x Hx. apply in_rev in Hx. now apply Hc.
  - destruct (is_space c) eqn:Sc.
    + destruct cur as [|a cur].
      * cbn [rev app]. specialize (IH [] ltac:(intros x [])). cbn [rev app] in IH. fold (split is_space s) in *.
        inversion IH as [sp Hs E1 E2|sp w rest ws Hs Hw Hn Hr Hws E1 E2].
        { constructor. intros x [<-|Hx]; auto. }
        { change (c :: sp ++ w ++ rest) with ((c :: sp) ++ w ++ rest). constructor; auto. intros x [<-|Hx]; auto. }
      * change (words is_space ([] ++ rev (a :: cur) ++ c :: s) (rev (a :: cur) :: split_aux is_space [] s)). constructor.
        { intros x []. }
        { intros E. apply (f_equal (@length Z)) in E. rewrite rev_length in E. discriminate. }
        { intros x Hx. apply in_rev in Hx. now apply Hc. }
        { right. exists c, s. auto. }
        { specialize (IH [] ltac:(intros x [])). cbn [rev app] in IH.
          inversion IH as [sp Hs E1 E2|sp w rest ws Hs Hw Hn Hr Hws E1 E2].
          - constructor. intros x [<-|Hx]; auto.
          - change (c :: sp ++ w ++ rest) with ((c :: sp) ++ w ++ rest). constructor; auto. intros x [<-|Hx]; auto. }
    + specialize (IH (c :: cur)). cbn [rev] in IH. rewrite <- app_assoc in IH. apply IH. intros x [<-|Hx]; auto.
Qed.

Lemma split_words s : words is_space s (split is_space s).
Proof. apply (split_aux_words s []). intros c []. Qed.

(* the words are determined by the text *)
Lemma split_aux_spaces sp : (forall c, In c sp -> is_space c = true) -> forall s, split_aux is_space [] (sp ++ s) = split_aux is_space [] s.
Proof. induction sp as [|c sp IH]; intros H s; cbn; [reflexivity|]. rewrite (H c (or_introl eq_refl)). apply IH. intros x Hx. apply H. now right. Qed.
Lemma split_aux_word w : (forall c, In c w -> is_space c = false) -> forall cur s, split_aux is_space cur (w ++ s) = split_aux is_space (rev w ++ cur) s.
Proof.
  induction w as [|c w IH]; intros H cur s; cbn; [reflexivity|]. rewrite (H c (or_introl eq_refl)). rewrite IH by (intros x Hx; apply H; now right).
  now rewrite <- app_assoc.
Qed.
Lemma split_aux_end cur s : cur <> [] -> (s = [] \/ exists c r, s = c :: r /\ is_space c = true) -> split_aux is_space cur s = rev cur :: split_aux is_space [] s.
Proof. intros N [->|(c & r & -> & Sc)]; cbn; [destruct cur; [congruence|reflexivity]|]. rewrite Sc. destruct cur; [congruence|reflexivity]. Qed.

Lemma words_split s ws : words is_space s ws -> split is_space s = ws.
Proof.
  unfold split. induction 1 as [sp H|sp w rest ws Hs Hw Hn Hr Hws IH].
  - rewrite <- (app_nil_r sp). now rewrite split_aux_spaces.
  - rewrite split_aux_spaces by exact Hs. rewrite split_aux_word by exact Hn. rewrite app_nil_r.
    rewrite split_aux_end; [now rewrite rev_involutive, IH| |exact Hr].
    intros E. apply (f_equal (@length Z)) in E. rewrite rev_length in E. destruct w; [congruence|discriminate].
Qed.

Definition word (w : str) : Prop := w <> [] /\ forall c, In c w -> is_space c = false.
Lemma words_word s ws : words is_space s ws -> Forall word ws.
Proof. induction 1; constructor; auto. split; auto. Qed.

Lemma join_words ws : is_space 32 = true -> Forall word ws -> words is_space (join ws) ws.
Proof.
  intros Sp. induction ws as [|w ws IH]; intros F; [constructor; intros c []|]. inversion F as [|? ? [Hw Hn] F']. subst. specialize (IH F').
  destruct ws as [|w' ws].
  - cbn [join]. replace w with ([] ++ w ++ []) at 1 by (cbn; now rewrite app_nil_r). constructor; auto; intros c [].
  - cbn [join]. change (words is_space ([] ++ w ++ 32 :: join (w' :: ws)) (w :: w' :: ws)). constructor; auto; try (intros c []).
    + right. exists 32, (join (w' :: ws)). auto.
    + remember (join (w' :: ws)) as J. inversion IH as [|sp w0 rest ws0 Hs Hw0 Hn0 Hr Hws E1 E2]. subst w0 ws0. clear HeqJ. subst J.
      change (32 :: sp ++ w' ++ rest) with ((32 :: sp) ++ w' ++ rest). constructor; auto. intros c [<-|Hc]; auto.
Qed.
End Words.

(* ----- swaps ----- *)
Lemma update_map_seq {A} (l : list A) i f d : update l i f = map (fun k => if Nat.eqb k i then f (nth k l d) else nth k l d) (seq 0 (length l)).
Proof.
  revert i. induction l as [|a l IH]; intros [|i]; cbn; auto.
  - f_equal. rewrite <- seq_shift, map_map. cbn. symmetry. apply map_nth_seq.
  - f_equal. rewrite IH, <- seq_shift, map_map. reflexivity.
Qed.
Lemma update_len {A} (l : list A) i f : length (update l i f) = length l.
Proof. revert i. induction l as [|a l IH]; intros [|i]; cbn; auto. Qed.
Lemma update_same {A} (l : list A) i f d : (i < length l)%nat -> nth i (update l i f) d = f (nth i l d).
Proof. revert i. induction l as [|a l IH]; intros [|i] H; cbn in *; try lia; auto. apply IH. lia. Qed.
Lemma update_other {A} (l : list A) i j f d : i <> j -> nth j (update l i f) d = nth j l d.
Proof. revert i j. induction l as [|a l IH]; intros [|i] [|j] H; cbn; auto; try congruence. Qed.

Lemma swap_at_len {A} (d : A) l i j : length (swap_at d l i j) = length l.
Proof. unfold swap_at. now rewrite !update_len. Qed.
Lemma swap_at_nth {A} (d : A) l i j k : (i < length l)%nat -> (j < length l)%nat ->
  nth k (swap_at d l i j) d = if Nat.eqb k j then nth i l d else if Nat.eqb k i then nth j l d else nth k l d.
Proof.
  intros Hi Hj. unfold swap_at. destruct (Nat.eqb_spec k j) as [->|N].
  - rewrite update_same by (rewrite update_len; exact Hj). reflexivity.
  - rewrite update_other by congruence. destruct (Nat.eqb_spec k i) as [->|N']; [now rewrite update_same|now rewrite update_other by congruence].
Qed.
Lemma swap_at_perm {A} (d : A) l i j : (i < length l)%nat -> (j < length l)%nat -> Permutation l (swap_at d l i j).
Proof.
  intros Hi Hj.
  set (tr := fun k => if Nat.eqb k j then i else if Nat.eqb k i then j else k).
  apply (Permutation_nth l (swap_at d l i j) d). split; [apply swap_at_len|]. exists tr. split; [|split].
  - intros k Hk. unfold tr. destruct (Nat.eqb k j); [exact Hi|]. destruct (Nat.eqb k i); [exact Hj|exact Hk].
  - intros a b Ha Hb. unfold tr. destruct (Nat.eqb_spec a j), (Nat.eqb_spec a i), (Nat.eqb_spec b j), (Nat.eqb_spec b i); lia.
  - intros k Hk. rewrite swap_at_nth by assumption. unfold tr. destruct (Nat.eqb k j); [reflexivity|]. destruct (Nat.eqb k i); reflexivity.
Qed.

Section Ops.
Variable is_space : Z -> bool.
Hypothesis space32 : is_space 32 = true.
Variable G : generator.
Hypothesis ok : draws_ok G.

Lemma keep_words_sub p ws : forall s, subsequence (fst (keep_words G p ws s)) ws /\
  ((p <= 0)%Q -> fst (keep_words G p ws s) = ws) /\ ((1 <= p)%Q -> fst (keep_words G p ws s) = []).
Proof using ok.
  clear space32 is_space.
  destruct ok as (U & _). induction ws as [|w ws IH]; intros s; cbn [keep_words].
  - cbn. split; [constructor|auto].
  - destruct (g_unit G s) as [u s1] eqn:E. pose proof (U s) as [U1 U2]. rewrite E in U1, U2. cbn in U1, U2.
    destruct (IH s1) as (I1 & I2 & I3). destruct (keep_words G p ws s1) as [kept s2]. cbn [fst] in *.
    destruct (Qle_bool p u) eqn:L.
    + cbn. split; [now apply sub_take|]. split; [intros H; f_equal; now apply I2|]. intros H. apply Qle_bool_iff in L. lra.
    + cbn. split; [now constructor|]. split; [|exact I3]. intros H. apply Qle_bool_false in L. lra.
Qed.

Lemma word_dropout_spec p s0 x ws : (0 <= p)%Q -> (p <= 1)%Q -> words is_space x ws ->
  exists out s1 ws', word_dropout is_space G p x s0 = Ok (out, s1) /\ words is_space out ws' /\ subsequence ws' ws /\
    (ws <> [] -> ws' <> []) /\ (ws = [] -> out = x) /\ ((p == 0)%Q -> ws' = ws) /\ ((p == 1)%Q -> ws <> [] -> length ws' = 1%nat).
Proof using ok space32.
  intros P0 P1 W. unfold word_dropout. rewrite (words_split is_space x ws W). pose proof (words_word is_space x ws W) as Fw.
  destruct ws as [|w0 ws0] eqn:Ews.
  - exists x, s0, []. split; [reflexivity|]. split; [exact W|]. split; [constructor|]. split; [congruence|]. split; [reflexivity|]. split; [reflexivity|congruence].
  - rewrite <- Ews in *. assert (Hne : ws <> []) by (rewrite Ews; discriminate). clear Ews w0 ws0. rewrite (in01_ok p P0 P1).
    destruct (keep_words_sub p ws s0) as (S1 & S2 & S3). destruct (keep_words G p ws s0) as [keep s1]. cbn [fst] in *.
    assert (Fk : forall l, subsequence l ws -> Forall (word is_space) l).
    { intros l S. rewrite Forall_forall in *. intros a Ha. apply Fw. eapply sub_In; eauto. }
    destruct keep as [|k0 keep0] eqn:Ek.
    + destruct (g_int G 0 (lenZ ws) s1) as [i s2] eqn:Ei. assert (Hlen : 0 < lenZ ws) by (unfold lenZ; destruct ws; [congruence|cbn; lia]).
      destruct ok as (_ & _ & I & _). pose proof (I 0 (lenZ ws) s1 Hlen) as Hi. rewrite Ei in Hi. cbn in Hi.
      assert (Hs : subsequence [nth (Z.to_nat i) ws []] ws) by (apply sub_single; unfold lenZ in Hi; lia).
      exists (join [nth (Z.to_nat i) ws []]), s2, [nth (Z.to_nat i) ws []]. split; [reflexivity|]. split; [apply join_words; auto|].
      split; [exact Hs|]. split; [discriminate|]. split; [congruence|]. split; [|reflexivity].
      intros E. exfalso. apply Hne. rewrite <- S2; [reflexivity|lra].
    + rewrite <- Ek in *. exists (join keep), s1, keep. split; [reflexivity|]. split; [apply join_words; auto|]. split; [exact S1|].
      split; [rewrite Ek; discriminate|]. split; [congruence|]. split; [intros E; apply S2; lra|]. intros E _. exfalso.
      assert (keep = []) by (apply S3; lra). congruence.
Qed.

Lemma swap_words_perm n : forall ws s, ws <> [] -> Permutation ws (fst (swap_words G n ws s)).
Proof using ok.
  clear space32 is_space.
  destruct ok as (_ & _ & _ & I & _). induction n as [|n IH]; intros ws s Hn; cbn [swap_words]; [apply Permutation_refl|].
  assert (Hl : 0 < lenZ ws) by (unfold lenZ; destruct ws; [congruence|cbn; lia]).
  pose proof (I (lenZ ws) s Hl) as [Hi Hj]. destruct (g_int2 G (lenZ ws) s) as [[i j] s1]. cbn [fst snd] in *.
  pose proof (swap_at_perm ([] : str) ws (Z.to_nat i) (Z.to_nat j) ltac:(unfold lenZ in *; lia) ltac:(unfold lenZ in *; lia)) as P.
  eapply Permutation_trans; [exact P|]. apply IH. intros E. change (swap_at ([] : str) ws (Z.to_nat i) (Z.to_nat j) = []) in E. rewrite E in P. apply Permutation_sym, Permutation_nil in P. contradiction.
Qed.

Lemma random_swap_spec n s0 x ws : words is_space x ws ->
  exists out s1 ws', random_swap is_space G n x s0 = Ok (out, s1) /\ words is_space out ws' /\ Permutation ws ws' /\
    ((length ws < 2)%nat -> out = x) /\ (n <= 0 -> ws' = ws).
Proof using ok space32.
  intros W. unfold random_swap. rewrite (words_split is_space x ws W). pose proof (words_word is_space x ws W) as Fw.
  destruct (Nat.ltb_spec (length ws) 2) as [L|L].
  - exists x, s0, ws. split; [reflexivity|]. split; [exact W|]. split; [apply Permutation_refl|]. auto.
  - pose proof (swap_words_perm (Z.to_nat (Z.max 0 n)) ws s0 ltac:(intros ->; cbn in L; lia)) as P.
    assert (Z0 : n <= 0 -> fst (swap_words G (Z.to_nat (Z.max 0 n)) ws s0) = ws).
    { intros Hn. replace (Z.to_nat (Z.max 0 n)) with 0%nat by lia. reflexivity. }
    destruct (swap_words G (Z.to_nat (Z.max 0 n)) ws s0) as [ws' s1]. cbn [fst] in *. exists (join ws'), s1, ws'.
    split; [reflexivity|]. split; [apply join_words; auto; rewrite Forall_forall in *; intros a Ha; apply Fw; eapply Permutation_in; [apply Permutation_sym; exact P|exact Ha]|].
    split; [exact P|]. split; [lia|exact Z0].
Qed.

Lemma per_item_spec (f : str -> g_state G -> result (str * g_state G)) (R : str -> str -> Prop) items : forall s,
  (forall x s, In x items -> exists y s1, f x s = Ok (y, s1) /\ R x y) -> exists ys s1, per_item G f items s = Ok (ys, s1) /\ Forall2 R items ys.
Proof using.
  clear ok space32 is_space.
  induction items as [|x items IH]; intros s H; cbn [per_item].
  - exists [], s. split; [reflexivity|constructor].
  - destruct (H x s (or_introl eq_refl)) as (y & s1 & E & Rxy). rewrite E. cbn [bind].
    destruct (IH s1) as (ys & s2 & E2 & F); [intros; apply H; now right|]. rewrite E2. cbn [bind]. exists (y :: ys), s2. split; [reflexivity|now constructor].
Qed.

(* ----- tokens ----- *)
Lemma non_pad_spec pad l i : In i (non_pad pad l) <-> (i < length l)%nat /\ ~ (nth i l 0 == pad)%Q.
Proof using.
  clear ok space32 is_space.
  unfold non_pad. rewrite filter_In, in_seq, negb_true_iff, Qeq_bool_false. split; intros [A B]; (split; [lia|exact B]).
Qed.

Definition swapped_row (pad : Q) (l l' : list Q) : Prop :=
  Permutation l l' /\ forall i, (i < length l)%nat -> (nth i l 0 == pad)%Q -> nth i l' 0%Q = nth i l 0%Q.

Lemma swap_tokens_spec valid n : forall l s, (2 <= length valid)%nat -> (forall i, In i valid -> (i < length l)%nat) ->
  Permutation l (fst (swap_tokens G n valid l s)) /\ forall i, ~ In i valid -> nth i (fst (swap_tokens G n valid l s)) 0%Q = nth i l 0%Q.
Proof using ok.
  clear space32 is_space.
  destruct ok as (_ & _ & _ & _ & C & _). induction n as [|n IH]; intros l s Hv Hr; cbn [swap_tokens]; [split; [apply Permutation_refl|reflexivity]|].
  pose proof (C valid s Hv) as [Ci Cj]. destruct (g_two G valid s) as [[i j] s1]. cbn [fst snd] in *.
  destruct (IH (swap_at 0%Q l i j) s1 Hv) as [P N]; [intros k Hk; rewrite swap_at_len; auto|].
  split; [exact (Permutation_trans (swap_at_perm 0%Q l i j (Hr i Ci) (Hr j Cj)) P)|]. intros k Hk. rewrite N by exact Hk. rewrite swap_at_nth by auto.
  destruct (Nat.eqb_spec k j) as [->|]; [contradiction|]. destruct (Nat.eqb_spec k i) as [->|]; [contradiction|reflexivity].
Qed.

Lemma swap_row_spec n pad l s : swapped_row pad l (fst (swap_row G n pad l s)).
Proof using ok.
  clear space32 is_space.
  unfold swap_row. destruct ((length (non_pad pad l) <? 2)%nat || (n <=? 0)) eqn:E; [split; [apply Permutation_refl|reflexivity]|].
  apply orb_false_iff in E. destruct E as [E1 E2]. apply Nat.ltb_ge in E1.
  destruct (swap_tokens_spec (non_pad pad l) (Z.to_nat n) l s E1) as [P N]; [intros i Hi; now apply non_pad_spec in Hi|].
  split; [exact P|]. intros i Hi Hp. apply N. rewrite non_pad_spec. tauto.
Qed.

Lemma swap_rows_spec n pad rows : forall s, Forall2 (swapped_row pad) rows (fst (swap_rows G n pad rows s)).
Proof using ok.
  clear space32 is_space.
  induction rows as [|r rows IH]; intros s; cbn [swap_rows]; [constructor|]. pose proof (swap_row_spec n pad r s) as H.
  destruct (swap_row G n pad r s) as [r' s1]. specialize (IH s1). destruct (swap_rows G n pad rows s1) as [rest s2]. cbn [fst] in *. now constructor.
Qed.
End Ops.
