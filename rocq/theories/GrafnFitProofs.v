From Coq Require Import QArith Qminmax Lqa ZifyBool ZifyNat.
From Verif Require Import Prelude ListFacts QFacts TransModel TransSpec TransProofs GnnModel GnnSpec GnnProofs GnnTrainProofs DeepLossSpec GrafnModel GrafnSpec GrafnProofs.
Local Open Scope Q_scope.
Local Open Scope list_scope.
Local Notation length := List.length.

Lemma first_best_unique acc e b b' : first_best acc e b -> first_best acc e b' -> b = b'.
Proof.
  intros (H1 & H2 & H3) (H1' & H2' & H3'). destruct (Nat.lt_trichotomy b b') as [H|[H|H]]; [|exact H|]; exfalso.
  - specialize (H2' b H). specialize (H3 b' H1'). lra.
  - specialize (H2 b' H). specialize (H3' b H1). lra.
Qed.
Lemma first_best_ext acc acc' e b : (forall a, (a <= e)%nat -> acc a = acc' a) -> first_best acc e b -> first_best acc' e b.
Proof. intros HE (H1 & H2 & H3). split; [exact H1|]. split; intros a Ha; rewrite <- !HE by lia; [now apply H2|now apply H3]. Qed.
Lemma first_best_new acc e b : first_best acc e b -> acc b < acc (S e) -> first_best acc (S e) (S e).
Proof. intros (H1 & H2 & H3) H. split; [lia|]. split; intros a Ha; [specialize (H3 a ltac:(lia)); lra|]. destruct (Nat.eq_dec a (S e)) as [->|Hn]; [lra|specialize (H3 a ltac:(lia)); lra]. Qed.
Lemma first_best_old acc e b : first_best acc e b -> acc (S e) <= acc b -> first_best acc (S e) b.
Proof. intros (H1 & H2 & H3) H. split; [lia|]. split; [exact H2|]. intros a Ha. destruct (Nat.eq_dec a (S e)) as [->|Hn]; [exact H|apply H3; lia]. Qed.
Lemma nth_snoc_old {A} (l : list A) x d i : (i < length l)%nat -> nth i (l ++ [x]) d = nth i l d. Proof. intros H. now rewrite app_nth1. Qed.
Lemma nth_snoc_new {A} (l : list A) x d : nth (length l) (l ++ [x]) d = x. Proof. rewrite app_nth2 by lia. now rewrite Nat.sub_diag. Qed.

Section Loop.
Variables W Op G : Type.
Variable random : G -> nat -> list Q * G.
Variable choice : G -> list nat -> nat -> bool -> list nat * G.
Variable integers : G -> Z * G.
Variable default_rng : Z -> G.
Variable rsqrt : Q -> Q.
Variable tiny : Q.
Variable step : (W -> Q) -> W -> Op -> W * Op.
Variable encode : W -> view -> mat.
Variable head : W -> list Q -> list Q.
Variable encode_eval : W -> view -> mat.
Variable argmax : list Q -> Z.
Variables softmax unit_row : list Q -> list Q.
Variable cosine : list Q -> list Q -> Q.
Variable cross : list Q -> Z -> Q.
Variable log_pow : Q -> Q -> Q.
Variables (sp : grafn_spec) (y : list Z) (train : list bool) (classes n : Z) (width : nat) (X : mat) (E : list edge) (base : view).
Notation draws := (epoch_objective G random choice integers default_rng rsqrt tiny sp y train classes n width X E).
Notation loss := (loss_of W encode head softmax unit_row cosine cross log_pow sp y train classes).
Notation loop val := (epochs W Op G random choice integers default_rng rsqrt tiny step encode head encode_eval argmax softmax unit_row cosine cross log_pow sp y train val classes n width X E base).
Variables (w0 : W) (o0 : Op) (g0 : G).
Notation runs := (run draws loss step w0 o0 g0).
Notation acc_of m w := (accuracy W head encode_eval argmax y m base w).

Lemma last_snoc (ws : list W) w : last (ws ++ [w]) w0 = w.
Proof using Type. induction ws as [|a ws IH]; [reflexivity|]. cbn [app]. destruct (ws ++ [w]) eqn:Ew; [destruct ws; discriminate|exact IH]. Qed.
Lemma draws_returns g : (exists r, draws g = Ok r) <-> (0 < classes)%Z /\ forall c, (0 <= c < classes)%Z -> exists i, labelled y train c i.
Proof using Type.
  rewrite <- (support_returns G choice y train classes g). unfold epoch_objective. destruct (sample_support G choice y train classes g) as [[[s L] g1]|e]; cbn [bind].
  - destruct (integers g1) as [s1 g2]. destruct (augmented G random rsqrt tiny _ _ n width X E (default_rng s1)) as [v1 ga]. destruct (integers g2) as [s2 g3]. destruct (augmented G random rsqrt tiny _ _ n width X E (default_rng s2)) as [v2 gb]. split; intros _; eexists; reflexivity.
  - split; intros [r Hr]; discriminate.
Qed.
Lemma draws_error g e : draws g = Err e -> e = ValueError.
Proof using Type.
  unfold epoch_objective. destruct (sample_support G choice y train classes g) as [[[s L] g1]|e'] eqn:Es; cbn [bind].
  - destruct (integers g1) as [s1 g2]. destruct (augmented G random rsqrt tiny _ _ n width X E (default_rng s1)) as [v1 ga]. destruct (integers g2) as [s2 g3]. destruct (augmented G random rsqrt tiny _ _ n width X E (default_rng s2)) as [v2 gb]. discriminate.
  - intros [= <-]. exact (support_error G choice y train classes g e' Es).
Qed.
(* no validation node: all the epochs, and the last weights *)
Lemma loop_plain val : (val = None \/ exists m, val = Some m /\ existsb (fun b => b) m = false) -> bad_label y train classes = false -> (forall g, exists r, draws g = Ok r) ->
  forall fuel ws o g, runs ws o g -> exists ws' o' g', runs ws' o' g' /\ length ws' = (length ws + fuel)%nat /\ loop val fuel (last ws w0) o g None 0 = (last ws' w0, Ok tt).
Proof.
  intros HV HB HD. induction fuel as [|fuel IH]; intros ws o g HR; [exists ws, o, g; split; [exact HR|split; [lia|reflexivity]]|].
  destruct (HD g) as [[ob g1] Eg]. destruct (step (loss ob) (last ws w0) o) as [w1 o1] eqn:Es. assert (HR' := run_more draws loss step w0 o0 g0 ws o g ob g1 w1 o1 HR Eg Es).
  destruct (IH _ _ _ HR') as (ws' & o' & g' & H1 & H2 & H3). rewrite app_length in H2. cbn [length] in H2. rewrite last_snoc in H3. exists ws', o', g'. split; [exact H1|]. split; [lia|]. cbn [epochs]. rewrite Eg, HB, Es. destruct HV as [->|(m & -> & Hm)]; [exact H3|]. rewrite Hm. exact H3.
Qed.
(* validation nodes: the accuracy decides *)
Section Validated.
Variable m : list bool.
Hypothesis Hm : existsb (fun b => b) m = true.
Hypothesis HB : bad_label y train classes = false.
Hypothesis HD : forall g, exists r, draws g = Ok r.
Let acc (ws : list W) (e : nat) : Q := acc_of m (nth e ws w0).
Definition going (ws : list W) (best : option (Q * W)) (bad : Z) : Prop :=
  (ws = [] /\ best = None) \/
  exists b, (0 < length ws)%nat /\ first_best (acc ws) (length ws - 1) b /\ best = Some (acc ws b, nth b ws w0) /\ bad = (Z.of_nat (length ws - 1) - Z.of_nat b)%Z /\
    (forall e b', (e < length ws)%nat -> first_best (acc ws) e b' -> (Z.of_nat e - Z.of_nat b' < Z.max 1 (gf_patience sp))%Z).
Lemma acc_snoc ws w e : (e < length ws)%nat -> acc (ws ++ [w]) e = acc ws e.
Proof. intros H. unfold acc. now rewrite nth_snoc_old. Qed.
Lemma loop_validated : forall fuel ws o g best bad, runs ws o g -> going ws best bad -> (0 < length ws + fuel)%nat ->
  exists ws' o' g' b, runs ws' o' g' /\ stops (acc ws') (gf_patience sp) (Z.of_nat (length ws + fuel)) (length ws') /\ first_best (acc ws') (length ws' - 1) b /\
    loop (Some m) fuel (last ws w0) o g best bad = (nth b ws' w0, Ok tt).
Proof.
  induction fuel as [|fuel IH]; intros ws o g best bad HR HG Hpos.
  - destruct HG as [[-> _]|(b & Hl & HF & Hb & _ & HS)]; [cbn in Hpos; lia|]. exists ws, o, g, b. split; [exact HR|]. split; [|split; [exact HF|]].
    + split; [exact Hl|]. split; [lia|]. split; [intros e b' He; apply HS; lia|left; lia].
    + cbn [epochs]. now rewrite Hb.
  - destruct (HD g) as [[ob g1] Eg]. destruct (step (loss ob) (last ws w0) o) as [w1 o1] eqn:Es. assert (HR' := run_more draws loss step w0 o0 g0 ws o g ob g1 w1 o1 HR Eg Es).
    assert (HL : length (ws ++ [w1]) = S (length ws)) by (rewrite app_length; cbn; lia). assert (HN : acc (ws ++ [w1]) (length ws) = acc_of m w1) by (unfold acc; now rewrite nth_snoc_new).
    cbn [epochs]. rewrite Eg, HB, Es, Hm. cbv zeta.
    destruct HG as [[-> ->]|(b & Hl & HF & Hb & Hbad & HS)].
    + specialize (IH [w1] o1 g1 (Some (acc_of m w1, w1)) 0%Z HR'). cbn [app length] in *. cbn [last] in IH. destruct IH as (ws' & o' & g' & b & H1 & H2 & H3 & H4); [|lia|].
      * right. exists O. cbn [length]. split; [lia|]. assert (HF0 : first_best (acc [w1]) 0 0) by (split; [lia|]; split; [intros a Ha; lia|intros a Ha; replace a with O by lia; lra]). split; [exact HF0|]. split; [reflexivity|]. split; [reflexivity|]. intros e b' He Hb'. lia.
      * exists ws', o', g', b. split; [exact H1|]. split; [exact H2|]. split; [exact H3|exact H4].
    + subst best. assert (HF' : first_best (acc (ws ++ [w1])) (length ws - 1) b) by (apply (first_best_ext (acc ws)); [intros a Ha; symmetry; apply acc_snoc; lia|exact HF]).
      assert (Hbl : (b < length ws)%nat) by (destruct HF; lia). assert (Hab : acc (ws ++ [w1]) b = acc ws b) by now apply acc_snoc.
      assert (HOld : forall e b', (e < length ws)%nat -> first_best (acc (ws ++ [w1])) e b' -> (Z.of_nat e - Z.of_nat b' < Z.max 1 (gf_patience sp))%Z).
      { intros e b' He Hf. apply (HS e b' He). apply (first_best_ext (acc (ws ++ [w1]))); [intros a Ha; apply acc_snoc; lia|exact Hf]. }
      replace (length ws) with (S (length ws - 1)) in HN at 2 by lia.
      destruct (Qltb (acc ws b) (acc_of m w1)) eqn:EQ.
      * apply Qltb_true in EQ. assert (HF2 : first_best (acc (ws ++ [w1])) (length ws) (length ws)) by (replace (length ws) with (S (length ws - 1)) by lia; apply (first_best_new _ _ b); [exact HF'|rewrite Hab; replace (S (length ws - 1)) with (length ws) in * by lia; rewrite HN; exact EQ]).
        specialize (IH (ws ++ [w1]) o1 g1 (Some (acc_of m w1, w1)) 0%Z HR'). rewrite last_snoc in IH. destruct IH as (ws' & o' & g' & b2 & H1 & H2 & H3 & H4); [|lia|].
        { right. exists (length ws). rewrite HL. split; [lia|]. replace (S (length ws) - 1)%nat with (length ws) by lia. split; [exact HF2|]. split; [unfold acc; now rewrite nth_snoc_new|]. split; [lia|]. intros e b' He Hf. destruct (Nat.eq_dec e (length ws)) as [->|Hne]; [|apply (HOld e b'); [lia|exact Hf]]. rewrite (first_best_unique _ _ _ _ Hf HF2). lia. }
        exists ws', o', g', b2. split; [exact H1|]. rewrite HL in H2. split; [replace (length ws + S fuel)%nat with (S (length ws) + fuel)%nat by lia; exact H2|]. split; [exact H3|exact H4].
      * apply Qltb_false in EQ. assert (HF2 : first_best (acc (ws ++ [w1])) (length ws) b) by (replace (length ws) with (S (length ws - 1)) by lia; apply first_best_old; [exact HF'|rewrite Hab; replace (S (length ws - 1)) with (length ws) in * by lia; rewrite HN; exact EQ]).
        destruct (Z.leb_spec (gf_patience sp) (bad + 1)) as [HP|HP].
        -- exists (ws ++ [w1]), o1, g1, b. split; [exact HR'|]. rewrite HL. replace (S (length ws) - 1)%nat with (length ws) by lia. split; [|split; [exact HF2|now rewrite nth_snoc_old]].
           split; [lia|]. split; [lia|]. split; [intros e b' He Hf; apply (HOld e b'); [lia|exact Hf]|]. right. exists b. replace (S (length ws) - 1)%nat with (length ws) by lia. split; [exact HF2|]. lia.
        -- specialize (IH (ws ++ [w1]) o1 g1 (Some (acc ws b, nth b ws w0)) (bad + 1)%Z HR'). rewrite last_snoc in IH. destruct IH as (ws' & o' & g' & b2 & H1 & H2 & H3 & H4); [|lia|].
           { right. exists b. rewrite HL. split; [lia|]. replace (S (length ws) - 1)%nat with (length ws) by lia. split; [exact HF2|]. split; [rewrite Hab, nth_snoc_old by exact Hbl; reflexivity|]. split; [lia|]. intros e b' He Hf. destruct (Nat.eq_dec e (length ws)) as [->|Hne]; [|apply (HOld e b'); [lia|exact Hf]]. rewrite (first_best_unique _ _ _ _ Hf HF2). lia. }
           exists ws', o', g', b2. split; [exact H1|]. rewrite HL in H2. split; [replace (length ws + S fuel)%nat with (S (length ws) + fuel)%nat by lia; exact H2|]. split; [exact H3|exact H4].
Qed.
End Validated.
(* a failing epoch fails at once *)
Lemma loop_fails val fuel w o g best bad : (exists e, draws g = Err e) \/ bad_label y train classes = true -> exists e, (e = ValueError \/ e = RuntimeError) /\ loop val (S fuel) w o g best bad = (w, Err e).
Proof using Type.
  intros H. cbn [epochs]. destruct (draws g) as [[ob g1]|e] eqn:Ed; [|exists e; split; [left; exact (draws_error g e Ed)|reflexivity]]. destruct H as [[e He]|H]; [discriminate|]. rewrite H. exists RuntimeError. split; [now right|reflexivity].
Qed.
End Loop.
