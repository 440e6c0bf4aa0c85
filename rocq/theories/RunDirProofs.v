From Coq Require Import String Ascii ZifyBool ZifyNat DecimalString DecimalZ Decimal.
From Verif Require Import Prelude ListFacts PyValue DecString LimitsModel BenchIoModel BenchIoSpec.
Local Open Scope string_scope.
Local Open Scope Z_scope.
Local Open Scope list_scope.
Local Notation length := List.length.

(* ------------------------------------------------------------------ names *)
Lemma candidate_numbered base k : candidate base k = numbered base k.
Proof.
  destruct k as [|k]; [reflexivity|]. unfold numbered, two_digits, candidate. cbn [Nat.eqb]. unfold two_digits.
  destruct (Nat.ltb_spec (S k) 10), (Z.ltb_spec (Z.of_nat (S k)) 10); try lia; reflexivity.
Qed.
Definition parse_dec (s : string) : option Z := option_map Z.of_int (NilZero.int_of_string s).
Lemma parse_of_dec z : parse_dec (dec z) = Some z.
Proof.
  unfold parse_dec, dec. destruct (to_int_not_nil z) as [A B]. rewrite (NilZero.isi _ A B). cbn. rewrite DecimalZ.of_to. reflexivity.
Qed.
Lemma parse_two_digits k : 1 <= k -> parse_dec (two_digits k) = Some k.
Proof.
  intros H. unfold two_digits. destruct (Z.ltb_spec k 10) as [L|L]; [|apply parse_of_dec].
  assert (k = 1 \/ k = 2 \/ k = 3 \/ k = 4 \/ k = 5 \/ k = 6 \/ k = 7 \/ k = 8 \/ k = 9) as X by lia.
  repeat destruct X as [->|X]; try (vm_compute; reflexivity). subst. vm_compute. reflexivity.
Qed.
Lemma append_same_head a b c : (a ++ b = a ++ c)%string -> b = c.
Proof. induction a as [|x a IH]; cbn; [auto|]. intros [= H]. apply IH, H. Qed.
Lemma append_cancel_nil a b : (a = a ++ b)%string -> b = EmptyString.
Proof. induction a as [|x a IH]; cbn; [auto|]. intros [= H]. apply IH, H. Qed.
Lemma candidate_inj base i j : candidate base i = candidate base j -> i = j.
Proof.
  destruct i as [|i], j as [|j]; cbn [candidate]; intros E; [reflexivity| | |].
  - apply append_cancel_nil in E. discriminate.
  - symmetry in E. apply append_cancel_nil in E. discriminate.
  - apply append_same_head in E. apply (append_same_head "__r") in E. apply (f_equal parse_dec) in E.
    rewrite !parse_two_digits in E by lia. injection E as E. lia.
Qed.

(* pigeonhole: one of the first names is free *)
Lemma some_free base (l : list string) : exists k, (k <= length l)%nat /\ ~ In (candidate base k) l /\ forall j, (j < k)%nat -> In (candidate base j) l.
Proof.
  assert (D : forall n, (exists k, (k < n)%nat /\ ~ In (candidate base k) l /\ forall j, (j < k)%nat -> In (candidate base j) l) \/ forall j, (j < n)%nat -> In (candidate base j) l).
  { induction n as [|n IH]; [right; lia|]. destruct IH as [(k & H & X)|IH]; [left; exists k; split; [lia|exact X]|].
    destruct (in_dec string_dec (candidate base n) l) as [Y|N].
    - right. intros j Hj. destruct (Nat.eq_dec j n) as [->|]; [exact Y|apply IH; lia].
    - left. exists n. split; [lia|]. auto. }
  destruct (D (S (length l))) as [(k & H & X)|A]; [exists k; split; [lia|exact X]|]. exfalso.
  assert (Inc : incl (map (candidate base) (seq 0 (S (length l)))) l).
  { intros x Hx. apply in_map_iff in Hx. destruct Hx as (j & <- & Hj). apply in_seq in Hj. apply A. lia. }
  apply NoDup_incl_length in Inc; [rewrite map_length, seq_length in Inc; lia|].
  apply FinFun.Injective_map_NoDup; [intros i j; apply candidate_inj|apply seq_NoDup].
Qed.

Lemma memS_iff k l : memS k l = true <-> In k l.
Proof.
  unfold memS. rewrite existsb_exists. split; [intros (x & H & E); apply String.eqb_eq in E; subst; exact H|].
  intros H. exists k. split; [exact H|apply String.eqb_refl].
Qed.

Lemma next_available_spec base (l : list string) fuel : (length l < fuel)%nat ->
  exists k, next_available fuel (fun n => memS n l) base 0 = Ok (candidate base k) /\ ~ In (candidate base k) l /\ forall j, (j < k)%nat -> In (candidate base j) l.
Proof.
  intros L. destruct (some_free base l) as (k & Hk & N & B). exists k. split; [|split; assumption].
  assert (G : forall d j f, (d + j = k)%nat -> (d < f)%nat -> next_available f (fun n => memS n l) base j = Ok (candidate base k)).
  { induction d as [|d IH]; intros j f Ej Lf; (destruct f as [|f]; [lia|]); cbn [next_available].
    - cbn in Ej. subst j. destruct (memS (candidate base k) l) eqn:M; [apply memS_iff in M; contradiction|reflexivity].
    - assert (M : memS (candidate base j) l = true) by (apply memS_iff, B; lia). rewrite M. apply IH; lia. }
  apply (G k 0%nat); lia.
Qed.

(* ------------------------------------------------------------------ many processes, no change of name *)
Lemma has_dir_iff ds n : has_dir ds n = true <-> In n (map fst ds).
Proof.
  unfold has_dir. rewrite existsb_exists, in_map_iff. split.
  - intros (x & H & E). apply String.eqb_eq in E. eauto.
  - intros (x & E & H). exists x. split; [exact H|]. apply String.eqb_eq, E.
Qed.
Lemma has_dir_false ds n : has_dir ds n = false <-> ~ In n (map fst ds).
Proof. rewrite <- has_dir_iff. destruct (has_dir ds n); intuition congruence. Qed.
Lemma update_same {A} (l : list A) i f x : nth_error l i = Some x -> nth_error (update l i f) i = Some (f x).
Proof. revert i. induction l as [|y l IH]; intros [|i] E; cbn in *; try discriminate; [congruence|apply IH, E]. Qed.
Lemma update_other {A} (l : list A) i j f : i <> j -> nth_error (update l i f) j = nth_error l j.
Proof. revert i j. induction l as [|y l IH]; intros [|i] [|j] N; cbn; try reflexivity; [congruence|]. apply IH. congruence. Qed.
Lemma fill_names n (ds : list (string * bool)) : map fst (map (fun x => if String.eqb (fst x) n then (n, true) else x) ds) = map fst ds.
Proof. rewrite map_map. apply map_ext. intros [a b]. cbn. destruct (String.eqb_spec a n); cbn; congruence. Qed.

Definition holds_name (p : pstate) : option string := match p with Made n | Filled n => Some n | _ => None end.
Record inv (existing : list (string * bool)) (w : world) : Prop := {
  iv_kept : forall x, In x existing -> In x (dirs w);
  iv_states : forall i p, nth_error (procs w) i = Some p ->
    (forall n k, p <> Relooking n k) /\ (forall n m, p <> Redecided n m) /\ (forall n, p <> Moved n) /\ (forall e, p = Failed e -> e = FileExistsError);
  iv_own : forall i p n, nth_error (procs w) i = Some p -> holds_name p = Some n -> In n (map fst (dirs w)) /\ ~ In n (map fst existing);
  iv_apart : forall i j p q n, nth_error (procs w) i = Some p -> nth_error (procs w) j = Some q -> holds_name p = Some n -> holds_name q = Some n -> i = j
}.
Lemma inv_start existing n : inv existing (start existing n).
Proof.
  assert (L : forall i p, nth_error (repeat (Looking 0) n) i = Some p -> p = Looking 0).
  { intros i p E. apply nth_error_In in E. apply repeat_spec in E. exact E. }
  constructor; cbn.
  - auto.
  - intros i p E. rewrite (L _ _ E). repeat split; try discriminate.
  - intros i p m E H. rewrite (L _ _ E) in H. discriminate.
  - intros i j p q m E _ H. rewrite (L _ _ E) in H. discriminate.
Qed.
Lemma inv_quiet existing w i p p' : inv existing w -> nth_error (procs w) i = Some p -> holds_name p' = None \/ holds_name p' = holds_name p ->
  (forall n k, p' <> Relooking n k) -> (forall n m, p' <> Redecided n m) -> (forall n, p' <> Moved n) -> (forall e, p' = Failed e -> e = FileExistsError) ->
  inv existing {| dirs := dirs w; procs := update (procs w) i (fun _ => p') |}.
Proof.
  intros [A B C D] Ei H R1 R2 R3 R4.
  assert (Old : forall j q, nth_error (update (procs w) i (fun _ => p')) j = Some q -> (j = i /\ q = p') \/ (j <> i /\ nth_error (procs w) j = Some q)).
  { intros j q E. destruct (Nat.eq_dec i j) as [<-|N].
    - rewrite (update_same _ _ _ _ Ei) in E. injection E as E. left. split; [reflexivity|symmetry; exact E].
    - rewrite update_other in E by exact N. right. auto. }
  constructor; cbn.
  - exact A.
  - intros j q E. destruct (Old j q E) as [[-> ->]|[_ E']]; [auto|eapply B, E'].
  - intros j q n E Hn. destruct (Old j q E) as [[-> ->]|[_ E']]; [|eapply C; eassumption].
    destruct H as [H|H]; [congruence|]. eapply C; [exact Ei|congruence].
  - intros j k q r n Ej Ek Hj Hk. destruct (Old j q Ej) as [[-> ->]|[Nj Ej']], (Old k r Ek) as [[-> ->]|[Nk Ek']]; [reflexivity| | |eapply D; eassumption].
    + destruct H as [H|H]; [congruence|]. eapply (D _ _ _ _ n); [exact Ei|exact Ek'|congruence|exact Hk].
    + destruct H as [H|H]; [congruence|]. eapply (D _ _ _ _ n); [exact Ej'|exact Ei|exact Hj|congruence].
Qed.
Lemma inv_step existing base w i : inv existing w -> inv existing (step base (fun _ => None) w i).
Proof.
  intros V. pose proof V as [A B C D]. unfold step. destruct (nth_error (procs w) i) as [p|] eqn:Ei; [|exact V].
  destruct (B i p Ei) as (B1 & B2 & B3 & B4).
  destruct p as [k|n|n|n|n k|n m|n|e]; cbn [step_proc]; try (exfalso; eapply B1; reflexivity); try (exfalso; eapply B2; reflexivity); try (exfalso; eapply B3; reflexivity).
  - destruct (has_dir (dirs w) (candidate (base i) k)); (apply (inv_quiet _ _ _ _ _ V Ei); [left; reflexivity| | | |]; discriminate).
  - destruct (has_dir (dirs w) n) eqn:Hd.
    + apply (inv_quiet _ _ _ _ _ V Ei); [left; reflexivity|discriminate|discriminate|discriminate|congruence].
    + apply has_dir_false in Hd.
      assert (Old : forall j q, nth_error (update (procs w) i (fun _ => Made n)) j = Some q -> (j = i /\ q = Made n) \/ (j <> i /\ nth_error (procs w) j = Some q)).
      { intros j q E. destruct (Nat.eq_dec i j) as [<-|N].
        - rewrite (update_same _ _ _ _ Ei) in E. injection E as E. left. split; [reflexivity|symmetry; exact E].
        - rewrite update_other in E by exact N. right. auto. }
      constructor; cbn.
      * intros x Hx. right. apply A, Hx.
      * intros j q E. destruct (Old j q E) as [[-> ->]|[_ E']]; [|eapply B, E']. repeat split; discriminate.
      * intros j q n' E Hn. destruct (Old j q E) as [[-> ->]|[_ E']].
        -- injection Hn as <-. split; [left; reflexivity|]. intros X. apply Hd. apply in_map_iff in X. destruct X as (x & <- & X). apply in_map, A, X.
        -- destruct (C _ _ _ E' Hn). split; [right; assumption|assumption].
      * intros j k q r n' Ej Ek Hj Hk. destruct (Old j q Ej) as [[-> ->]|[Nj Ej']], (Old k r Ek) as [[-> ->]|[Nk Ek']]; [reflexivity| | |eapply D; eassumption].
        -- exfalso. injection Hj as <-. apply Hd. eapply C; eassumption.
        -- exfalso. injection Hk as <-. apply Hd. eapply C; eassumption.
  - pose proof (inv_quiet _ _ _ _ (Filled n) V Ei) as Q. destruct Q as [A' B' C' D']; [right; reflexivity|discriminate|discriminate|discriminate|discriminate|]. cbn in *.
    constructor; cbn; [|exact B'| |exact D'].
    + intros x Hx. apply in_map_iff. exists x. split; [|apply A, Hx].
      destruct (String.eqb_spec (fst x) n) as [E|]; [|reflexivity]. exfalso. apply (C i (Made n) n Ei eq_refl). rewrite <- E. apply in_map, Hx.
    + intros j q n' E Hn. rewrite fill_names. eapply C'; eassumption.
  - apply (inv_quiet _ _ _ _ _ V Ei); [right; reflexivity|discriminate|discriminate|discriminate|discriminate].
  - apply (inv_quiet _ _ _ _ _ V Ei); [left; reflexivity|discriminate|discriminate|discriminate|exact B4].
Qed.
Lemma inv_run existing base sched w : inv existing w -> inv existing (run base (fun _ => None) w sched).
Proof. revert w. induction sched as [|i sched IH]; intros w V; [exact V|]. apply IH, inv_step, V. Qed.

(* ------------------------------------------------------------------ a process alone *)
Section Alone.
Variables (base : nat -> string) (base2 : nat -> option string).
Notation go := (run base base2).
Lemma run_app w a b : go w (a ++ b) = go (go w a) b. Proof. apply fold_left_app. Qed.
Definition solo ds p := {| dirs := ds; procs := [p] |}.
Lemma step_solo ds p : step base base2 (solo ds p) 0 = (let '(ds', p') := step_proc (base 0%nat) (base2 0%nat) ds p in solo ds' p').
Proof. unfold step, solo. cbn. destruct (step_proc _ _ _ _). reflexivity. Qed.
Lemma look ds d : forall j, (forall i, (j <= i < d + j)%nat -> In (candidate (base 0%nat) i) (map fst ds)) ->
  go (solo ds (Looking j)) (repeat 0%nat d) = solo ds (Looking (d + j)).
Proof.
  induction d as [|d IH]; intros j H; [reflexivity|]. cbn [repeat]. unfold run in *. cbn [fold_left]. rewrite step_solo. cbn [step_proc].
  rewrite (proj2 (has_dir_iff _ _)) by (apply H; lia). rewrite IH; [f_equal; f_equal; lia|]. intros i Hi. apply H. lia.
Qed.
Lemma relook ds n b d : base2 0%nat = Some b -> forall j, (forall i, (j <= i < d + j)%nat -> In (candidate b i) (map fst ds)) ->
  go (solo ds (Relooking n j)) (repeat 0%nat d) = solo ds (Relooking n (d + j)).
Proof.
  intros Eb. induction d as [|d IH]; intros j H; [reflexivity|]. cbn [repeat]. unfold run in *. cbn [fold_left]. rewrite step_solo. cbn [step_proc]. rewrite Eb.
  rewrite (proj2 (has_dir_iff _ _)) by (apply H; lia). rewrite IH; [f_equal; f_equal; lia|]. intros i Hi. apply H. lia.
Qed.
Lemma stuck ds p d : step base base2 (solo ds p) 0 = solo ds p -> go (solo ds p) (repeat 0%nat d) = solo ds p.
Proof. intros E. induction d as [|d IH]; [reflexivity|]. cbn [repeat]. unfold run in *. cbn [fold_left]. rewrite E. exact IH. Qed.

Lemma alone existing : exists steps, forall more, exists p n,
  procs (go (start existing 1) (repeat 0%nat (steps + more))) = [p] /\
  owns p n /\ ~ In n (map fst existing) /\
  (forall x, In x existing -> In x (dirs (go (start existing 1) (repeat 0%nat (steps + more))))) /\
  In n (map fst (dirs (go (start existing 1) (repeat 0%nat (steps + more))))) /\
  exists k wanted, wanted = (match base2 0%nat with Some b => b | None => base 0%nat end) /\ n = numbered wanted k /\
    forall j, (j < k)%nat -> In (numbered wanted j) (numbered (base 0%nat) 0 :: map fst existing) \/ exists j', numbered wanted j = numbered (base 0%nat) j'.
Proof.
  change (start existing 1) with (solo existing (Looking 0)).
  destruct (some_free (base 0%nat) (map fst existing)) as (k & _ & Nk & Bk). set (n := candidate (base 0%nat) k) in *.
  set (ds := map (fun x => if String.eqb (fst x) n then (n, true) else x) ((n, false) :: existing)).
  assert (Kept : forall x, In x existing -> In x ds).
  { intros x Hx. apply in_map_iff. exists x. split; [|right; exact Hx]. destruct (String.eqb_spec (fst x) n) as [E|]; [|reflexivity].
    exfalso. apply Nk. rewrite <- E. apply in_map, Hx. }
  assert (Names : map fst ds = n :: map fst existing) by (unfold ds; rewrite fill_names; reflexivity).
  assert (Phase1 : go (solo existing (Looking 0)) (repeat 0%nat (k + 3)) = solo ds (Filled n)).
  { rewrite repeat_app, run_app, look by (intros i Hi; apply Bk; lia). rewrite Nat.add_0_r. cbn [repeat]. unfold run. cbn [fold_left].
    rewrite step_solo. cbn [step_proc]. change (candidate (base 0%nat) k) with n. rewrite (proj2 (has_dir_false _ _) Nk).
    rewrite step_solo. cbn [step_proc]. rewrite (proj2 (has_dir_false _ _) Nk). rewrite step_solo. cbn [step_proc]. reflexivity. }
  destruct (base2 0%nat) as [b|] eqn:Eb.
  - destruct (some_free b (map fst ds)) as (k2 & _ & Nk2 & Bk2). set (m := candidate b k2) in *.
    assert (Dm : forall x, In x ds -> String.eqb (fst x) m = false).
    { intros x Hx. apply String.eqb_neq. intros E. apply Nk2. rewrite <- E. apply in_map, Hx. }
    assert (Rn : rename_dir ds n m = Some (map (fun x => if String.eqb (fst x) n then (m, snd x) else x) ds)).
    { unfold rename_dir. replace (existsb _ _) with false.
      2:{ symmetry. apply not_true_is_false. intros E. apply existsb_exists in E. destruct E as (x & Hx & E). rewrite (Dm x Hx) in E. discriminate. }
      f_equal. f_equal. unfold drop_dir. clear - Dm. induction ds as [|x ds IH]; [reflexivity|]. cbn. rewrite (Dm x) by (left; reflexivity). cbn.
      f_equal. apply IH. intros y Hy. apply Dm. right. exact Hy. }
    set (ds2 := map (fun x => if String.eqb (fst x) n then (m, snd x) else x) ds) in *.
    assert (Phase2 : go (solo ds (Filled n)) (repeat 0%nat (1 + k2 + 2)) = solo ds2 (Moved m)).
    { rewrite !repeat_app, !run_app. cbn [repeat]. unfold run at 3. cbn [fold_left]. rewrite step_solo. cbn [step_proc]. rewrite Eb.
      rewrite (relook ds n b k2 Eb) by (intros i Hi; apply Bk2; lia). rewrite Nat.add_0_r. unfold run. cbn [fold_left].
      rewrite step_solo. cbn [step_proc]. rewrite Eb. change (candidate b k2) with m. rewrite (proj2 (has_dir_false _ _) Nk2).
      rewrite step_solo. cbn [step_proc]. rewrite Rn. reflexivity. }
    exists ((k + 3) + (1 + k2 + 2))%nat. intros more. exists (Moved m), m.
    rewrite (repeat_app _ (k + 3 + (1 + k2 + 2))), (repeat_app _ (k + 3)), !run_app, Phase1, Phase2, stuck by (rewrite step_solo; reflexivity). cbn [dirs procs solo].
    split; [reflexivity|]. split; [unfold owns; tauto|]. split; [intros X; apply Nk2; rewrite Names; right; exact X|]. split; [|split].
    + intros x Hx. apply in_map_iff. exists x. split; [|apply Kept, Hx]. destruct (String.eqb_spec (fst x) n) as [E|]; [|reflexivity].
      exfalso. apply Nk. rewrite <- E. apply in_map, Hx.
    + apply in_map_iff. exists (m, true). split; [reflexivity|]. unfold ds2. apply in_map_iff. exists (n, true).
      cbn [fst snd]. rewrite String.eqb_refl. split; [reflexivity|]. unfold ds. cbn [map fst]. rewrite String.eqb_refl. left. reflexivity.
    + exists k2, b. split; [reflexivity|]. split; [unfold m; apply candidate_numbered|]. intros j Hj. rewrite <- !candidate_numbered.
      pose proof (Bk2 j Hj) as X. rewrite Names in X. destruct X as [X|X]; [right; exists k; rewrite <- candidate_numbered; symmetry; exact X|left; right; exact X].
  - exists (k + 3)%nat. intros more. exists (Filled n), n.
    rewrite repeat_app, run_app, Phase1, stuck by (rewrite step_solo; cbn [step_proc]; rewrite Eb; reflexivity). cbn [dirs procs solo].
    split; [reflexivity|]. split; [unfold owns; tauto|]. split; [exact Nk|]. split; [exact Kept|]. split; [rewrite Names; left; reflexivity|].
    exists k, (base 0%nat). split; [reflexivity|]. split; [unfold n; apply candidate_numbered|]. intros j Hj. left. right. rewrite <- candidate_numbered. apply Bk, Hj.
Qed.
End Alone.

(* ------------------------------------------------------------------ seeds *)
Lemma payload_inj m l m' l' : seed_payload m l = seed_payload m' l' -> m = m' /\ l = l'.
Proof.
  unfold seed_payload. intros E. apply split_unique in E; [|apply dec_no_char; [reflexivity|discriminate]|apply dec_no_char; [reflexivity|discriminate]].
  destruct E as [E ->]. split; [apply dec_inj, E|reflexivity].
Qed.
Lemma dec_nonneg_no_minus z : 0 <= z -> count_char "-" (dec z) = 0%nat.
Proof.
  intros H. unfold dec, NilZero.string_of_int, NilZero.string_of_uint. destruct z as [|p|p]; [reflexivity| |lia]. cbn [Z.to_int].
  destruct (Pos.to_uint p) eqn:E; try reflexivity; (rewrite <- E; apply uint_no_char; reflexivity).
Qed.
Lemma trial_label_inj t r t' r' : 0 <= t -> 0 <= t' -> trial_label t r = trial_label t' r' -> t = t' /\ r = r'.
Proof.
  intros H H' E. unfold trial_label in E. apply (append_same_head "hpo-trial-") in E.
  change ("-repeat-" ++ dec r)%string with (String "-" ("repeat-" ++ dec r)) in E.
  change ("-repeat-" ++ dec r')%string with (String "-" ("repeat-" ++ dec r')) in E.
  apply split_unique in E; [|apply dec_nonneg_no_minus, H|apply dec_nonneg_no_minus, H'].
  destruct E as [E1 E2]. apply (append_same_head "repeat-") in E2. split; apply dec_inj; assumption.
Qed.
Lemma be32_range h : Forall (fun b => 0 <= b < 256) h -> 0 <= be32 h < 2 ^ 32.
Proof.
  intros F. unfold be32. destruct h as [|a [|b [|c [|d h]]]]; cbn [firstn fold_left];
    repeat match goal with F : Forall _ (_ :: _) |- _ => apply Forall_inv in F as ?; apply Forall_inv_tail in F end; lia.
Qed.
