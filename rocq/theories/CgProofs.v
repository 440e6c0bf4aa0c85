(* Proofs about conjugate gradient. *)
From Coq Require Import QArith Qminmax Qabs Lqa ZifyBool ZifyNat.
From Verif Require Import Prelude ListFacts SampleServiceProofs QFacts TransModel TransSpec TransProofs TransSolveProofs.
Local Open Scope Q_scope.
Local Open Scope list_scope.

Lemma combine_nth_Q (f : Q -> Q -> Q) (x y : vec) i : f 0 0 == 0 -> List.length x = List.length y -> nth i (map (fun p : Q * Q => f (fst p) (snd p)) (combine x y)) 0 == f (nth i x 0) (nth i y 0).
Proof.
  intros H0. revert y i. induction x as [|a x IH]; intros [|b y] i Hl; try discriminate; cbn [combine map].
  - destruct i; cbn; symmetry; exact H0.
  - destruct i as [|i]; cbn [nth fst snd]; [reflexivity|apply IH; cbn in Hl; lia].
Qed.
Lemma vadd_nth x y i : List.length x = List.length y -> nth i (vadd x y) 0 == nth i x 0 + nth i y 0.
Proof. intros H. exact (combine_nth_Q Qplus x y i (Qplus_0_l 0) H). Qed.
Lemma vsub_nth x y i : List.length x = List.length y -> nth i (vsub x y) 0 == nth i x 0 - nth i y 0.
Proof. intros H. apply (combine_nth_Q Qminus x y i); [reflexivity|exact H]. Qed.
Lemma vscale_nth a x i : nth i (vscale a x) 0 == a * nth i x 0.
Proof. unfold vscale. revert i. induction x as [|b x IH]; intros [|i]; cbn [map nth]; try ring; apply IH. Qed.
Lemma vadd_length x y : List.length x = List.length y -> List.length (vadd x y) = List.length x.
Proof. intros H. unfold vadd. rewrite map_length, combine_length. lia. Qed.
Lemma vsub_length x y : List.length x = List.length y -> List.length (vsub x y) = List.length x.
Proof. intros H. unfold vsub. rewrite map_length, combine_length. lia. Qed.
Lemma vscale_length a x : List.length (vscale a x) = List.length x.
Proof. apply map_length. Qed.
Lemma dot_sum x y m : List.length x = m -> List.length y = m -> dot x y == Qsum (map (fun i => nth i x 0 * nth i y 0) (seq 0 m)).
Proof.
  unfold dot. intros <-. revert y. induction x as [|a x IH]; intros [|b y] Hl; try discriminate; [reflexivity|].
  cbn [combine map List.length seq fst snd]. qs. rewrite IH by (cbn in Hl; lia). rewrite <- seq_shift, map_map. reflexivity.
Qed.

Section Vectors.
Variable m : nat.
Notation ok x := (List.length x = m).
Lemma dot_ext x x' y y' : ok x -> ok x' -> ok y -> ok y' -> (forall i, nth i x 0 == nth i x' 0) -> (forall i, nth i y 0 == nth i y' 0) -> dot x y == dot x' y'.
Proof. intros H1 H2 H3 H4 E1 E2. rewrite (dot_sum x y m H1 H3), (dot_sum x' y' m H2 H4). apply Qsum_ext. intros i _. rewrite (E1 i), (E2 i). reflexivity. Qed.
Lemma dot_comm x y : ok x -> ok y -> dot x y == dot y x.
Proof. intros H1 H2. rewrite (dot_sum x y m H1 H2), (dot_sum y x m H2 H1). apply Qsum_ext. intros; ring. Qed.
Lemma dot_add x y z : ok x -> ok y -> ok z -> dot x (vadd y z) == dot x y + dot x z.
Proof.
  intros H1 H2 H3. rewrite (dot_sum x (vadd y z) m), (dot_sum x y m), (dot_sum x z m) by (rewrite ?vadd_length; congruence). rewrite <- Qsum_plus. apply Qsum_ext. intros i _. rewrite vadd_nth by congruence. ring.
Qed.
Lemma dot_sub x y z : ok x -> ok y -> ok z -> dot x (vsub y z) == dot x y - dot x z.
Proof.
  intros H1 H2 H3. rewrite (dot_sum x (vsub y z) m), (dot_sum x y m), (dot_sum x z m) by (rewrite ?vsub_length; congruence). rewrite <- Qsum_minus. apply Qsum_ext. intros i _. rewrite vsub_nth by congruence. ring.
Qed.
Lemma dot_scale a x y : ok x -> ok y -> dot x (vscale a y) == a * dot x y.
Proof.
  intros H1 H2. rewrite (dot_sum x (vscale a y) m), (dot_sum x y m) by (rewrite ?vscale_length; congruence). rewrite <- Qsum_scale. apply Qsum_ext. intros i _. rewrite vscale_nth. ring.
Qed.
Lemma dot_pos x : 0 <= dot x x.
Proof. unfold dot. apply Qsum_nonneg. intros v Hv. apply in_map_iff in Hv as ([a b] & <- & H). assert (Hab : a = b) by (clear -H; induction x as [|c x IH]; [destruct H|]; destruct H as [H|H]; [congruence|apply IH, H]). cbn. subst b. nra. Qed.
Lemma dot_zero x : ok x -> dot x x == 0 -> forall i, nth i x 0 == 0.
Proof.
  intros H E i. destruct (Nat.lt_ge_cases i m) as [Hi|Hi]; [|rewrite nth_overflow by lia; reflexivity]. rewrite (dot_sum x x m H H) in E.
  assert (Hz : nth i x 0 * nth i x 0 == 0).
  { apply (Qsum_zero_inv (map (fun i => nth i x 0 * nth i x 0) (seq 0 m))); [|exact E|apply in_map_iff; exists i; split; [reflexivity|apply in_seq; lia]]. intros v Hv. apply in_map_iff in Hv as (j & <- & _). nra. }
  apply Qmult_integral in Hz as [Hz|Hz]; exact Hz.
Qed.
Lemma dot_zero_l x y : ok x -> ok y -> (forall i, nth i y 0 == 0) -> dot x y == 0.
Proof. intros H1 H2 Hz. rewrite (dot_sum x y m H1 H2). apply Qsum_zero. intros i _. rewrite (Hz i). ring. Qed.

(* ---- at most m mutually orthogonal vectors *)
Inductive orthogonal : list vec -> Prop :=
| orth_nil : orthogonal []
| orth_cons r l : ok r -> 0 < dot r r -> (forall s, In s l -> dot r s == 0) -> orthogonal l -> orthogonal (r :: l).
Lemma orthogonal_ok l : orthogonal l -> forall r, In r l -> ok r /\ 0 < dot r r.
Proof. induction 1 as [|r l H1 H2 H3 H4 IH]; intros s []; [subst; auto|apply IH; assumption]. Qed.
Lemma bessel l : orthogonal l -> forall e, ok e -> Qsum (map (fun r => dot e r * dot e r / dot r r) l) <= dot e e.
Proof.
  induction 1 as [|r l Hr Hp Ho Hl IH]; intros e He; [cbn; apply dot_pos|]. cbn [map]. qs. set (c := dot e r / dot r r).
  assert (Hl' : ok (vscale c r)) by (rewrite vscale_length; exact Hr). assert (He' : ok (vsub e (vscale c r))) by (rewrite vsub_length; congruence). specialize (IH _ He').
  assert (Hc : forall z, ok z -> dot (vsub e (vscale c r)) z == dot e z - c * dot r z).
  { intros z Hz. rewrite (dot_comm _ z He' Hz), (dot_sub z e (vscale c r) Hz He Hl'), (dot_scale c z r Hz Hr), (dot_comm z e Hz He), (dot_comm z r Hz Hr). reflexivity. }
  assert (Hsame : Qsum (map (fun r0 => dot (vsub e (vscale c r)) r0 * dot (vsub e (vscale c r)) r0 / dot r0 r0) l) == Qsum (map (fun r0 => dot e r0 * dot e r0 / dot r0 r0) l)).
  { apply Qsum_ext. intros s Hs. destruct (orthogonal_ok l Hl s Hs) as [Hs1 Hs2]. rewrite (Hc s Hs1), (Ho s Hs). field. lra. }
  rewrite Hsame in IH. rewrite (Hc _ He') in IH. rewrite (dot_sub e e (vscale c r) He He Hl'), (dot_sub r e (vscale c r) Hr He Hl'), (dot_scale c e r He Hr), (dot_scale c r r Hr Hr), (dot_comm r e Hr He) in IH.
  assert (Hf : dot e e - c * dot e r - c * (dot e r - c * dot r r) == dot e e - dot e r * dot e r / dot r r) by (unfold c; field; lra). rewrite Hf in IH. lra.
Qed.
Definition unit_vec (i : nat) : vec := map (fun j => if Nat.eqb j i then 1 else 0) (seq 0 m).
Lemma unit_ok i : ok (unit_vec i). Proof. unfold unit_vec. rewrite map_length, seq_length. reflexivity. Qed.
Lemma unit_dot i r : (i < m)%nat -> ok r -> dot (unit_vec i) r == nth i r 0.
Proof.
  intros Hi Hr. rewrite (dot_sum _ r m (unit_ok i) Hr). rewrite <- (sum_pick (fun j => nth j r 0) i (seq 0 m)); [|apply seq_NoDup|apply in_seq; lia]. apply Qsum_ext. intros j Hj. apply in_seq in Hj.
  unfold unit_vec. rewrite (nth_map_in _ _ j O) by (rewrite seq_length; lia). rewrite seq_nth by lia. reflexivity.
Qed.
Lemma orthogonal_count l : orthogonal l -> (List.length l <= m)%nat.
Proof.
  intros H. assert (Hle : Qsum (map (fun i => Qsum (map (fun r => dot (unit_vec i) r * dot (unit_vec i) r / dot r r) l)) (seq 0 m)) <= Qsum (map (fun _ => 1) (seq 0 m))).
  { apply Qsum_le. intros i Hi. apply in_seq in Hi. eapply Qle_trans; [apply bessel; [exact H|apply unit_ok]|]. rewrite (unit_dot i _ ltac:(lia) (unit_ok i)). unfold unit_vec. rewrite (nth_map_in _ _ i O) by (rewrite seq_length; lia). rewrite seq_nth by lia. rewrite Nat.eqb_refl. lra. }
  rewrite Qsum_swap in Hle. rewrite (Qsum_ext _ (fun _ : vec => 1) l) in Hle.
  - rewrite !Qsum_const in Hle. unfold lenZ in Hle. rewrite seq_length in Hle. rewrite !Qmult_1_r in Hle. rewrite <- Zle_Qle in Hle. lia.
  - intros r Hr. destruct (orthogonal_ok l H r Hr) as [Hr1 Hr2]. rewrite (Qsum_ext _ (fun i => (nth i r 0 * nth i r 0) * / dot r r) (seq 0 m)).
    + rewrite Qsum_scale_r. rewrite <- (dot_sum r r m Hr1 Hr1). field. lra.
    + intros i Hi. apply in_seq in Hi. rewrite (unit_dot i r ltac:(lia) Hr1). reflexivity.
Qed.

(* ---- the loop *)
Variable A : vec -> vec.
Hypothesis HA : linear m A.
Variable b : vec.
Hypothesis Hb : ok b.
Variable tol : Q.
Definition residual_is (x r : vec) : Prop := ok x /\ ok r /\ forall i, nth i r 0 == nth i b 0 - nth i (A x) 0.
Lemma residual_start x : ok x -> residual_is x (vsub b (A x)).
Proof. intros Hx. assert (HAx := proj1 HA x Hx). split; [exact Hx|]. split; [rewrite vsub_length; congruence|]. intros i. apply vsub_nth. congruence. Qed.
Lemma residual_step x r p a : residual_is x r -> ok p -> residual_is (vadd x (vscale a p)) (vsub r (vscale a (A p))).
Proof.
  intros (Hx & Hr & H) Hp. assert (HAx := proj1 HA x Hx). assert (HAp := proj1 HA p Hp). destruct (proj2 HA x p a Hx Hp) as [_ Hl]. split; [|split].
  - rewrite vadd_length; [exact Hx|rewrite vscale_length; congruence].
  - rewrite vsub_length; [exact Hr|rewrite vscale_length; congruence].
  - intros i. rewrite (Hl i), vsub_nth, vadd_nth, !vscale_nth, (H i) by (rewrite vscale_length; congruence). ring.
Qed.
Lemma residual_dot x r : residual_is x r -> dot r r == residual2 A b x.
Proof.
  intros (Hx & Hr & H). assert (HAx := proj1 HA x Hx). unfold residual2. apply dot_ext; try (rewrite ?vsub_length; congruence); intros i; rewrite vsub_nth by congruence; apply H.
Qed.
Lemma within_ok rs : within rs tol = true <-> 0 <= tol /\ rs <= tol * tol.
Proof. unfold within. rewrite andb_true_iff, !Qle_bool_iff. reflexivity. Qed.
Lemma cg_loop_ok : forall fuel k x r p rs info x' info', residual_is x r -> ok p -> cg_residual2 info == residual2 A b x -> cg_converged info = false -> cg_iter info = k ->
  cg_loop A tol fuel k x r p rs info = (x', info') ->
  ok x' /\ cg_residual2 info' == residual2 A b x' /\ (k <= cg_iter info' <= k + Z.of_nat fuel)%Z /\ (cg_converged info' = true -> 0 <= tol /\ cg_residual2 info' <= tol * tol).
Proof.
  induction fuel as [|fuel IH]; intros k x r p rs info x' info' Hres Hp Hi Hc Hk H; cbn [cg_loop] in H; [injection H as <- <-; split; [apply Hres|]; split; [exact Hi|]; split; [lia|congruence]|].
  destruct (Qeq_bool (dot p (A p)) 0); [injection H as <- <-; split; [apply Hres|]; split; [exact Hi|]; split; [lia|congruence]|].
  cbv zeta in H. set (a := rs / dot p (A p)) in *. assert (Hres' := residual_step x r p a Hres Hp). assert (Hd := residual_dot _ _ Hres'). set (r' := vsub r (vscale a (A p))) in *. set (x1 := vadd x (vscale a p)) in *.
  destruct (within (dot r' r') tol) eqn:Ew.
  - injection H as <- <-. split; [apply Hres'|]. cbn. split; [exact Hd|]. split; [lia|]. intros _. apply within_ok, Ew.
  - apply IH in H; [|exact Hres'|rewrite vadd_length; rewrite ?vscale_length; destruct Hres' as (_ & Hr' & _); congruence|exact Hd|reflexivity|reflexivity]. destruct H as (H1 & H2 & H3 & H4). split; [exact H1|]. split; [exact H2|]. split; [lia|exact H4].
Qed.
Lemma cg_ok (x0 : option vec) max_iter x info : (forall v, x0 = Some v -> ok v) -> cg_solve A tol b x0 max_iter = (x, info) ->
  ok x /\ cg_residual2 info == residual2 A b x /\ (0 <= cg_iter info <= Z.max 0 max_iter)%Z /\
  (cg_converged info = true -> residual2 A b x == 0 \/ (0 <= tol /\ residual2 A b x <= tol * tol)).
Proof.
  intros Hx0 H. unfold cg_solve in H. cbv zeta in H. set (xs := match x0 return vec with None => map (fun _ : Q => 0) b | Some x => x end) in *.
  assert (Hxs : ok xs) by (unfold xs; destruct x0; [apply Hx0; reflexivity|rewrite map_length; exact Hb]). assert (Hres := residual_start xs Hxs). assert (Hd := residual_dot _ _ Hres).
  destruct (Qeq_bool (dot (vsub b (A xs)) (vsub b (A xs))) 0) eqn:E0.
  - injection H as <- <-. apply Qeq_bool_iff in E0. rewrite E0 in Hd. split; [exact Hxs|]. cbn. split; [exact Hd|]. split; [lia|]. intros _. left. symmetry. exact Hd.
  - apply cg_loop_ok in H; [|exact Hres|apply Hres|exact Hd|reflexivity|reflexivity]. destruct H as (H1 & H2 & H3 & H4). split; [exact H1|]. split; [exact H2|]. split; [lia|]. intros Hc. right. rewrite <- H2. apply H4, Hc.
Qed.

(* ---- positive definite operators: no breakdown, and at most m rounds *)
Hypothesis HS : positive_definite m A.
Hypothesis Htol : 0 <= tol.
Record conjugate (hist : list (vec * vec)) (r p : vec) : Prop := {
  cj_r : ok r; cj_p : ok p;
  cj_len : forall q, In q hist -> ok (fst q) /\ ok (snd q);
  cj_orth : orthogonal (r :: map fst hist);
  cj_rp : forall q, In q hist -> dot r (snd q) == 0;
  cj_pAp : forall q, In q hist -> dot p (A (snd q)) == 0;
  cj_self : dot r p == dot r r;
  cj_span1 : forall v, ok v -> (forall q, In q hist -> dot v (snd q) == 0) -> dot v r == dot v p /\ forall q, In q hist -> dot v (fst q) == 0;
  cj_span2 : forall v, ok v -> (forall q, In q hist -> dot v (fst q) == 0) -> dot v r == 0 -> forall q, In q hist -> dot v (A (snd q)) == 0
}.
Lemma conjugate_denom hist r p : conjugate hist r p -> 0 < dot p (A p).
Proof.
  intros H. assert (Hp := cj_p _ _ _ H). assert (Hr := cj_r _ _ _ H). destruct (Qlt_le_dec 0 (dot p (A p))) as [|Hle]; [assumption|exfalso].
  assert (Hz : forall i, nth i p 0 == 0).
  { intros i. destruct (Qeq_dec (nth i p 0) 0) as [|Hne]; [assumption|]. assert (Hpos := proj2 HS p Hp (ex_intro _ i Hne)). lra. }
  assert (H0 := dot_zero_l r p Hr Hp Hz). rewrite (cj_self _ _ _ H) in H0. assert (Ho := cj_orth _ _ _ H). inversion Ho; subst. lra.
Qed.
Lemma conjugate_step hist r p : conjugate hist r p ->
  let a := dot r r / dot p (A p) in let r' := vsub r (vscale a (A p)) in
  0 < dot r' r' -> conjugate ((r, p) :: hist) r' (vadd r' (vscale (dot r' r' / dot r r) p)).
Proof.
  intros H a r' Hpos. assert (Hden := conjugate_denom _ _ _ H). assert (Hr := cj_r _ _ _ H). assert (Hp := cj_p _ _ _ H). assert (HAp := proj1 HA p Hp).
  assert (Hrr : 0 < dot r r) by (assert (Ho := cj_orth _ _ _ H); inversion Ho; assumption).
  assert (Hs1 : ok (vscale a (A p))) by (rewrite vscale_length; exact HAp). assert (Hr' : ok r') by (unfold r'; rewrite vsub_length; congruence).
  set (be := dot r' r' / dot r r). assert (Hs2 : ok (vscale be p)) by (rewrite vscale_length; exact Hp). set (p' := vadd r' (vscale be p)). assert (Hp' : ok p') by (unfold p'; rewrite vadd_length; congruence).
  assert (Hv : forall v, ok v -> dot v r' == dot v r - a * dot v (A p)) by (intros v Hv; unfold r'; rewrite (dot_sub v r _ Hv Hr Hs1), (dot_scale a v _ Hv HAp); reflexivity).
  assert (Hvp : forall v, ok v -> dot v p' == dot v r' + be * dot v p) by (intros v Hv'; unfold p'; rewrite (dot_add v r' _ Hv' Hr' Hs2), (dot_scale be v p Hv' Hp); reflexivity).
  assert (Ha : 0 < a) by (unfold a; apply Qlt_shift_div_l; lra).
  assert (HApj : forall q, In q hist -> dot (A p) (snd q) == 0).
  { intros q Hq. destruct (cj_len _ _ _ H q Hq) as [_ Hq2]. rewrite <- (proj1 HS p (snd q) Hp Hq2). apply (cj_pAp _ _ _ H q Hq). }
  destruct (cj_span1 _ _ _ H (A p) HAp HApj) as [HAr HAri].
  assert (Hr'r : dot r r' == 0) by (rewrite (Hv r Hr), (dot_comm r (A p) Hr HAp), HAr, (dot_comm (A p) p HAp Hp); unfold a; field; lra).
  assert (Hr'p : dot p r' == 0) by (rewrite (Hv p Hp), (dot_comm p r Hp Hr), (cj_self _ _ _ H); unfold a; field; lra).
  assert (Hr'ri : forall q, In q hist -> dot r' (fst q) == 0).
  { intros q Hq. destruct (cj_len _ _ _ H q Hq) as [Hq1 Hq2]. rewrite (dot_comm r' _ Hr' Hq1), (Hv _ Hq1), (dot_comm _ r Hq1 Hr), (dot_comm _ (A p) Hq1 HAp), (HAri q Hq). assert (Ho := cj_orth _ _ _ H). inversion Ho as [|? ? _ _ Ho1 _]; subst. rewrite (Ho1 (fst q) (in_map fst _ _ Hq)). ring. }
  assert (Hr'pi : forall q, In q hist -> dot r' (snd q) == 0).
  { intros q Hq. destruct (cj_len _ _ _ H q Hq) as [Hq1 Hq2]. rewrite (dot_comm r' _ Hr' Hq2), (Hv _ Hq2), (dot_comm _ r Hq2 Hr), (dot_comm _ (A p) Hq2 HAp), (HApj q Hq), (cj_rp _ _ _ H q Hq). ring. }
  assert (Hvr' : forall v, ok v -> dot v (A p) == (dot v r - dot v r') / a) by (intros v Hv'; rewrite (Hv v Hv'); field; lra).
  constructor.
  - exact Hr'.
  - exact Hp'.
  - intros q [<-|Hq]; [split; assumption|apply (cj_len _ _ _ H q Hq)].
  - cbn [map fst]. constructor; [exact Hr'|exact Hpos| |exact (cj_orth _ _ _ H)]. intros s [<-|Hs]; [rewrite (dot_comm r' r Hr' Hr); exact Hr'r|]. apply in_map_iff in Hs as (q & <- & Hq). apply Hr'ri, Hq.
  - intros q [<-|Hq]; [cbn; rewrite (dot_comm r' p Hr' Hp); exact Hr'p|apply Hr'pi, Hq].
  - intros q [<-|Hq].
    + cbn [snd]. rewrite (dot_comm p' _ Hp' HAp), (Hvp _ HAp), (dot_comm (A p) r' HAp Hr'), (Hvr' r' Hr'), (dot_comm r' r Hr' Hr), Hr'r, (dot_comm (A p) p HAp Hp). unfold be, a. field. split; lra.
    + destruct (cj_len _ _ _ H q Hq) as [Hq1 Hq2]. assert (HAq := proj1 HA _ Hq2). rewrite (dot_comm p' _ Hp' HAq), (Hvp _ HAq), (dot_comm _ r' HAq Hr'), (dot_comm _ p HAq Hp), (cj_pAp _ _ _ H q Hq).
      rewrite (cj_span2 _ _ _ H r' Hr' Hr'ri); [ring| |exact Hq]. rewrite (dot_comm r' r Hr' Hr). exact Hr'r.
  - rewrite (Hvp r' Hr'), (dot_comm r' p Hr' Hp), Hr'p. ring.
  - intros v Hv' Hvq. assert (Hvp0 : dot v p == 0) by exact (Hvq (r, p) (or_introl eq_refl)). destruct (cj_span1 _ _ _ H v Hv' (fun q Hq => Hvq q (or_intror Hq))) as [H1 H2]. split.
    + rewrite (Hvp v Hv'), Hvp0. ring.
    + intros q [<-|Hq]; [cbn; rewrite H1; exact Hvp0|apply H2, Hq].
  - intros v Hv' Hvq Hvr q [<-|Hq].
    + cbn [snd]. rewrite (Hvr' v Hv'), Hvr. assert (H1 := Hvq (r, p) (or_introl eq_refl)). cbn in H1. rewrite H1. field. lra.
    + apply (cj_span2 _ _ _ H v Hv' (fun q Hq => Hvq q (or_intror Hq)) (Hvq (r, p) (or_introl eq_refl)) q Hq).
Qed.
Lemma conjugate_count hist r p : conjugate hist r p -> (List.length hist < m)%nat.
Proof. intros H. assert (Hc := orthogonal_count _ (cj_orth _ _ _ H)). cbn [List.length] in Hc. rewrite map_length in Hc. lia. Qed.
Lemma cg_loop_converges : forall fuel k x r p rs info x' info' hist, conjugate hist r p -> rs = dot r r -> (m <= List.length hist + fuel)%nat ->
  cg_loop A tol fuel k x r p rs info = (x', info') -> cg_converged info' = true /\ (cg_iter info' <= k + Z.of_nat m - Z.of_nat (List.length hist))%Z.
Proof.
  induction fuel as [|fuel IH]; intros k x r p rs info x' info' hist H Hrs Hm Hl; assert (Hc := conjugate_count _ _ _ H); [lia|]. subst rs. cbn [cg_loop] in Hl. assert (Hden := conjugate_denom _ _ _ H).
  destruct (Qeq_bool (dot p (A p)) 0) eqn:E0; [apply Qeq_bool_iff in E0; lra|]. cbv zeta in Hl. assert (Hstep := conjugate_step _ _ _ H). cbv zeta in Hstep. set (r' := vsub r (vscale (dot r r / dot p (A p)) (A p))) in *.
  destruct (within (dot r' r') tol) eqn:Ew; [injection Hl as <- <-; cbn; split; [reflexivity|lia]|].
  assert (Hpos : 0 < dot r' r').
  { destruct (Qlt_le_dec 0 (dot r' r')) as [|Hle]; [assumption|]. assert (Hw : within (dot r' r') tol = true) by (apply within_ok; split; [exact Htol|]; assert (0 <= tol * tol) by (apply Qmult_le_0_compat; exact Htol); lra). congruence. }
  apply (IH _ _ _ _ _ _ _ _ ((r, p) :: hist)) in Hl; [|exact (Hstep Hpos)|reflexivity|cbn [List.length]; lia]. destruct Hl as [H1 H2]. split; [exact H1|]. cbn [List.length] in H2. lia.
Qed.
Lemma cg_converges (x0 : option vec) max_iter x info : (forall v, x0 = Some v -> ok v) -> (Z.of_nat m <= max_iter)%Z -> cg_solve A tol b x0 max_iter = (x, info) ->
  cg_converged info = true /\ (cg_iter info <= Z.of_nat m)%Z /\ residual2 A b x <= tol * tol.
Proof.
  intros Hx0 Hmi H. destruct (cg_ok _ _ _ _ Hx0 H) as (_ & _ & _ & Hres0).
  assert (Hgoal : cg_converged info = true /\ (cg_iter info <= Z.of_nat m)%Z).
  { unfold cg_solve in H. cbv zeta in H. set (xs := match x0 return vec with None => map (fun _ : Q => 0) b | Some x => x end) in *.
    assert (Hxs : ok xs) by (unfold xs; destruct x0; [apply Hx0; reflexivity|rewrite map_length; exact Hb]). assert (Hres := residual_start xs Hxs).
    destruct (Qeq_bool (dot (vsub b (A xs)) (vsub b (A xs))) 0) eqn:E0; [injection H as <- <-; cbn; split; [reflexivity|lia]|].
    set (r := vsub b (A xs)) in *. assert (Hr : ok r) by apply Hres. assert (Hpos : 0 < dot r r).
    { assert (Hd := dot_pos r). destruct (Qlt_le_dec 0 (dot r r)) as [|Hle]; [assumption|]. assert (Hz : dot r r == 0) by lra. apply Qeq_bool_iff in Hz. congruence. }
    apply (cg_loop_converges _ _ _ _ _ _ _ _ _ []) in H; [|constructor; [exact Hr|exact Hr|intros ? []|constructor; [exact Hr|exact Hpos|intros ? []|constructor]|intros ? []|intros ? []|reflexivity|intros v Hv _; split; [reflexivity|intros ? []]|intros v _ _ _ ? []]|reflexivity|cbn [List.length]; lia]. destruct H as [H1 H2]. split; [exact H1|]. cbn [List.length] in H2. lia. }
  destruct Hgoal as [Hc Hi]. split; [exact Hc|]. split; [exact Hi|]. destruct (Hres0 Hc) as [Hz|[_ Hz]]; [|exact Hz]. rewrite Hz. apply Qmult_le_0_compat; exact Htol.
Qed.
End Vectors.
