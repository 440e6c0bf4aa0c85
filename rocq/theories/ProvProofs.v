From Coq Require Import String Sorted Permutation Lia ZifyBool ZifyNat.
From Verif Require Import Prelude ListFacts BundleProofs ProvModel ProvSpec.
Local Open Scope Z_scope.
Local Open Scope list_scope.
Local Notation length := List.length.

Lemma at_nat {A} (l : list A) i a : at_z l (Z.of_nat i) = Ok a <-> nth_error l i = Some a.
Proof.
  unfold at_z; destruct (Z.ltb_spec (Z.of_nat i) 0); [lia|]; cbv zeta; destruct (Z.ltb_spec (Z.of_nat i) 0); [lia|]; rewrite Nat2Z.id.
  destruct (nth_error l i); split; congruence.
Qed.
Lemma gather_picks {A} (l : list A) q r : gather l (map Z.of_nat q) = Ok r <-> picks l q r.
Proof.
  revert r; induction q as [|i q IH]; intros r; cbn [map gather]; [split; [intros [= <-]; constructor|intros H; inversion H; reflexivity]|].
  rewrite bind_ok; split.
  - intros (a & Ha & H); apply bind_ok in H; destruct H as (b & Hb & [= <-]); constructor; [apply at_nat; exact Ha|apply IH; exact Hb].
  - intros H; inversion H as [|? a ? b Ha Hb]; subst; exists a; split; [apply at_nat; exact Ha|]; apply IH in Hb; rewrite Hb; reflexivity.
Qed.
Lemma picks_exists {A} (l : list A) q : (forall i, In i q -> (i < length l)%nat) -> exists r, picks l q r.
Proof.
  induction q as [|i q IH]; intros H; [exists []; constructor|].
  destruct IH as (r & Hr); [intros j Hj; apply H; right; exact Hj|].
  destruct (nth_error l i) as [a|] eqn:E; [exists (a :: r); constructor; assumption|].
  apply nth_error_None in E; specialize (H i (or_introl eq_refl)); lia.
Qed.
Lemma picks_length {A} (l : list A) p r : picks l p r -> length r = length p.
Proof. intros H; symmetry; eapply Forall2_length; exact H. Qed.
Lemma picks_nth {A} (l : list A) p r : picks l p r -> forall j i, nth_error p j = Some i -> nth_error r j = nth_error l i.
Proof.
  intros H; induction H as [|i a p r E _ IH]; intros j k Hj; [destruct j; discriminate|].
  destruct j as [|j]; [injection Hj as ->; cbn; symmetry; exact E|exact (IH j k Hj)].
Qed.
Lemma picks_compose {A} (l : list A) p r q r' : picks l p r -> picks r q r' -> picks l (map (fun i => nth i p 0%nat) q) r'.
Proof.
  intros H H'; induction H' as [|j a q r' E _ IH]; cbn [map]; constructor; [|exact IH].
  assert (Hj : (j < length p)%nat) by (rewrite <- (picks_length _ _ _ H); apply nth_error_Some; congruence).
  rewrite <- (picks_nth l p r H j (nth j p 0%nat)); [exact E|apply nth_error_nth'; exact Hj].
Qed.
Lemma picks_map {A} (l : list A) p r d : picks l p r -> r = map (fun i => nth i l d) p.
Proof. intros H; induction H as [|i a p r E _ IH]; [reflexivity|]; cbn [map]; f_equal; [symmetry; apply nth_error_nth; exact E|exact IH]. Qed.
Lemma map_picks {A} (l : list A) p d : (forall i, In i p -> (i < length l)%nat) -> picks l p (map (fun i => nth i l d) p).
Proof.
  induction p as [|i p IH]; intros H; cbn [map]; constructor; [apply nth_error_nth'; apply H; left; reflexivity|apply IH; intros j Hj; apply H; right; exact Hj].
Qed.

(* positions of a mask *)
Fixpoint positions (k : nat) (m : list bool) : list nat := match m with [] => [] | b :: r => if b then k :: positions (S k) r else positions (S k) r end.
Lemma positions_in k m i : In i (positions k m) <-> (k <= i)%nat /\ nth_error m (i - k) = Some true.
Proof.
  revert k; induction m as [|b m IH]; intros k; cbn [positions]; [split; [intros []|intros (_ & H); destruct (i - k)%nat; discriminate]|].
  assert (E : In i (positions (S k) m) <-> (S k <= i)%nat /\ nth_error (b :: m) (i - k) = Some true).
  { rewrite IH; split; intros (H1 & H2); (split; [lia|]); [replace (i - k)%nat with (S (i - S k)) by lia; exact H2|replace (i - k)%nat with (S (i - S k)) in H2 by lia; exact H2]. }
  destruct b; cbn [In]; rewrite E.
  - split; [intros [<-|(H1 & H2)]; [rewrite Nat.sub_diag; auto|split; [lia|exact H2]]|].
    intros (H1 & H2); destruct (Nat.eq_dec k i) as [->|]; [left; reflexivity|right; split; [lia|exact H2]].
  - split; [intros (H1 & H2); split; [lia|exact H2]|].
    intros (H1 & H2); destruct (Nat.eq_dec k i) as [->|]; [rewrite Nat.sub_diag in H2; discriminate|split; [lia|exact H2]].
Qed.
Lemma positions_sorted k m : StronglySorted lt (positions k m).
Proof.
  revert k; induction m as [|b m IH]; intros k; cbn [positions]; [constructor|]; destruct b; [|apply IH].
  constructor; [apply IH|]; apply Forall_forall; intros i Hi; apply positions_in in Hi; lia.
Qed.
Lemma picks_shift {A} (a : A) l p r : picks l p r -> picks (a :: l) (map S p) r.
Proof. intros H; induction H; cbn [map]; constructor; assumption. Qed.
Lemma positions_shift k m : positions (S k) m = map S (positions k m).
Proof. revert k; induction m as [|b m IH]; intros k; [reflexivity|]; cbn [positions]; destruct b; cbn [map]; rewrite IH; reflexivity. Qed.
Lemma masked_ok {A} (l : list A) m : length l = length m -> exists r, masked l m = Ok r /\ picks l (positions 0 m) r.
Proof.
  revert m; induction l as [|a l IH]; intros [|b m] E; try discriminate; [exists []; split; [reflexivity|constructor]|].
  destruct (IH m ltac:(cbn in E; lia)) as (r & Hr & Hp); cbn [masked positions]; rewrite Hr; cbn [bind]; rewrite positions_shift.
  destruct b; eexists; (split; [reflexivity|]); [constructor; [reflexivity|]|]; apply picks_shift; exact Hp.
Qed.
Lemma masked_err {A} (l : list A) m : length l <> length m -> masked l m = Err IndexError.
Proof.
  revert m; induction l as [|a l IH]; intros [|b m] E; try reflexivity; [destruct (E eq_refl)|].
  cbn [masked]; rewrite IH; [reflexivity|cbn in E; lia].
Qed.

Lemma passing_positions c y : passing (Some c) y (positions 0 (map (fun l => memZ l c) y)).
Proof.
  split; [apply positions_sorted|]; intros i; rewrite positions_in, Nat.sub_0_r, nth_error_map.
  destruct (nth_error y i) as [l|]; cbn [option_map].
  - split; [intros (_ & [= E]); exists l; split; [reflexivity|]; intros c' [= <-]; apply memZ_In; exact E|].
    intros (l' & [= <-] & H); split; [lia|]; f_equal; apply memZ_In; apply H; reflexivity.
  - split; [intros (_ & [=])|intros (l & [=] & _)].
Qed.
Lemma passing_none y : passing None y (seq 0 (length y)).
Proof.
  split.
  - generalize 0%nat; induction (length y) as [|n IH]; intros k; cbn [seq]; constructor; [apply IH|]; apply Forall_forall; intros i Hi; apply in_seq in Hi; lia.
  - intros i; rewrite in_seq; split.
    + intros H; destruct (nth_error y i) as [l|] eqn:E; [exists l; split; [reflexivity|discriminate]|apply nth_error_None in E; lia].
    + intros (l & E & _); assert (i < length y)%nat by (apply nth_error_Some; congruence); lia.
Qed.
Lemma picks_all {A} (l : list A) : picks l (seq 0 (length l)) l.
Proof.
  induction l as [|a l IH]; cbn [length seq]; constructor; [reflexivity|]; rewrite <- seq_shift; apply picks_shift; exact IH.
Qed.
Lemma filter_ok {A} cf (X : list A) y : length X = length y -> exists all X' y', apply_class_filter cf X y = Ok (X', y') /\ passing cf y all /\ picks X all X' /\ picks y all y'.
Proof.
  intros E; destruct cf as [c|]; cbn [apply_class_filter]; cbv zeta.
  - destruct (masked_ok X (map (fun l => memZ l c) y)) as (X' & HX & PX); [rewrite map_length; exact E|].
    destruct (masked_ok y (map (fun l => memZ l c) y)) as (y' & Hy & Py); [rewrite map_length; reflexivity|].
    rewrite HX, Hy; do 3 eexists; split; [reflexivity|split; [apply passing_positions|split; assumption]].
  - exists (seq 0 (length y)), X, y; split; [reflexivity|split; [apply passing_none|split; [rewrite <- E|]; apply picks_all]].
Qed.

Lemma sorted_NoDup all : StronglySorted lt all -> NoDup all.
Proof. intros H; induction H as [|a l _ IH F]; constructor; [|exact IH]; intros Hin; rewrite Forall_forall in F; specialize (F a Hin); lia. Qed.

Section Limit.
Context (shuffle : Z -> nat -> list nat) (shuffle_ok : forall s n, Permutation (shuffle s n) (seq 0 n)).
Lemma shuffled_arange s n : shuffled shuffle s (arange (Z.of_nat n)) = map Z.of_nat (shuffle s n).
Proof.
  unfold shuffled; rewrite arange_length, Nat2Z.id; apply map_ext_in; intros i Hi.
  apply (Permutation_in _ (shuffle_ok s n)) in Hi; apply in_seq in Hi; unfold arange; rewrite Nat2Z.id.
  rewrite (nth_indep _ 0 (Z.of_nat 0)) by (rewrite map_length, seq_length; lia); rewrite map_nth, seq_nth by lia; lia.
Qed.
Lemma limit_ok {A} max seed (X : list A) y : length X = length y ->
  exists p X' y', limit_samples shuffle max seed X y = Ok (X', y') /\ limited max seed (seq 0 (length y)) p /\ picks X p X' /\ picks y p y' /\
    (forall s, seed = Some s -> max <> None -> p = firstn (length p) (shuffle s (length y))).
Proof.
  intros E; unfold limit_samples, limited; destruct max as [m|].
  2: { exists (seq 0 (length y)), X, y; split; [reflexivity|split; [split; [apply seq_NoDup|split; [apply incl_refl|split; [reflexivity|intros _; rewrite firstn_all; reflexivity]]]|split; [rewrite <- E; apply picks_all|split; [apply picks_all|intros s _ H; destruct (H eq_refl)]]]]. }
  cbv zeta; destruct ((m <=? 0) || Nat.eqb (length y) 0) eqn:Eb.
  { exists [], [], []; split; [reflexivity|split; [|split; [constructor|split; [constructor|reflexivity]]]]; split; [constructor|split; [intros ? []|split; [|reflexivity]]].
    rewrite seq_length; cbn [length]; apply orb_true_iff in Eb; destruct Eb as [Eb|Eb]; lia. }
  set (q := match seed with Some s => shuffle s (length y) | None => seq 0 (length y) end).
  assert (Eq : match seed with Some s => shuffled shuffle s (arange (Z.of_nat (length y))) | None => arange (Z.of_nat (length y)) end = map Z.of_nat q).
  { unfold q; destruct seed as [s|]; [apply shuffled_arange|unfold arange; rewrite Nat2Z.id; reflexivity]. }
  rewrite Eq, firstn_map.
  assert (Pq : Permutation q (seq 0 (length y))) by (unfold q; destruct seed; [apply shuffle_ok|reflexivity]).
  set (t := Nat.min (length y) (Z.to_nat m)).
  assert (Lq : length q = length y) by (rewrite (Permutation_length Pq); apply seq_length).
  assert (In1 : forall i, In i (firstn t q) -> (i < length y)%nat).
  { intros i Hi; assert (Hq : In i q) by (rewrite <- (firstn_skipn t q); apply in_or_app; left; exact Hi); apply (Permutation_in _ Pq) in Hq; apply in_seq in Hq; lia. }
  destruct (picks_exists X (firstn t q)) as (X' & PX); [intros i Hi; rewrite E; auto|]; destruct (picks_exists y (firstn t q)) as (y' & Py); [auto|].
  exists (firstn t q), X', y'; split; [rewrite (proj2 (gather_picks X _ _) PX); cbn [bind]; rewrite (proj2 (gather_picks y _ _) Py); reflexivity|].
  assert (Lt : length (firstn t q) = t) by (rewrite firstn_length, Lq; unfold t; lia).
  split; [|split; [exact PX|split; [exact Py|intros s -> _; rewrite Lt; reflexivity]]].
  split; [|split; [|split]].
  - assert (N : NoDup q) by (eapply NoDup_perm; [apply Permutation_sym; exact Pq|apply seq_NoDup]).
    rewrite <- (firstn_skipn t q) in N; apply NoDup_app_iff in N; apply N.
  - intros i Hi; apply in_seq; specialize (In1 i Hi); lia.
  - rewrite Lt, seq_length; reflexivity.
  - intros [->|H]; [rewrite Lt; reflexivity|discriminate].
Qed.
Lemma nth_NoDup_map (all p : list nat) : NoDup all -> NoDup p -> (forall i, In i p -> (i < length all)%nat) -> NoDup (map (fun i => nth i all 0%nat) p).
Proof.
  intros Na Np; induction Np as [|i p Hi _ IH]; intros H; cbn [map]; constructor; [|apply IH; intros j Hj; apply H; right; exact Hj].
  intros Hin; apply in_map_iff in Hin; destruct Hin as (j & E & Hj).
  assert (j = i) by (apply (proj1 (NoDup_nth all 0%nat) Na); [apply H; right; exact Hj|apply H; left; reflexivity|exact E]); subst; contradiction.
Qed.
Lemma map_nth_firstn (all : list nat) k : map (fun i => nth i all 0%nat) (firstn k (seq 0 (length all))) = firstn k all.
Proof. rewrite <- firstn_map, map_nth_seq; reflexivity. Qed.
Lemma limits_ok {A} cf max seed (X : list A) y : length X = length y ->
  exists all p X' y', apply_limits shuffle cf max seed X y = Ok (X', y') /\ passing cf y all /\ limited max seed all p /\ picks X p X' /\ picks y p y' /\
    (forall s, seed = Some s -> max <> None -> p = drawn shuffle s all p).
Proof.
  intros E; destruct (filter_ok cf X y E) as (all & X1 & y1 & H1 & Pa & PX & Py).
  pose proof (picks_length _ _ _ PX) as LX; pose proof (picks_length _ _ _ Py) as Ly.
  destruct (limit_ok max seed X1 y1 ltac:(congruence)) as (q & X' & y' & H2 & (Nq & Iq & Cq & Sq) & QX & Qy & Dq).
  exists all, (map (fun i => nth i all 0%nat) q), X', y'; split; [unfold apply_limits; rewrite H1; exact H2|split; [exact Pa|]].
  rewrite Ly in *; rewrite seq_length in Cq.
  split; [|split; [eapply picks_compose; eassumption|split; [eapply picks_compose; eassumption|intros s Hs Hn; unfold drawn; rewrite map_length, <- (Dq s Hs Hn); reflexivity]]].
  split; [|split; [|split]].
  - apply nth_NoDup_map; [apply sorted_NoDup; apply Pa|exact Nq|]; intros i Hi; apply Iq, in_seq in Hi; lia.
  - intros i Hi; apply in_map_iff in Hi; destruct Hi as (j & <- & Hj); apply nth_In; apply Iq, in_seq in Hj; lia.
  - rewrite map_length; exact Cq.
  - intros Hs; rewrite map_length; rewrite (Sq Hs) at 1; apply map_nth_firstn.
Qed.
End Limit.

(* ----- graphs ----- *)
Lemma singles_length {B} (l : list B) : length (singles l) = length l.
Proof. apply map_length. Qed.
Lemma concat_singles {B} (l : list B) : concat (singles l) = l.
Proof. induction l as [|b l IH]; [reflexivity|]; cbn; f_equal; exact IH. Qed.
Lemma where_from (l : list Z) c k :
  concat (map (fun p => repeat (Z.of_nat (fst p)) (length (filter (fun l => memZ l c) (snd p)))) (combine (seq k (length l)) (singles l)))
  = map Z.of_nat (positions k (map (fun a => memZ a c) l)).
Proof.
  revert k; induction l as [|a l IH]; intros k; [reflexivity|].
  change (singles (a :: l)) with ([a] :: singles l); cbn [length seq combine map concat fst snd filter positions]; rewrite IH.
  destruct (memZ a c); reflexivity.
Qed.
Lemma where_singles l c : where_isin (singles l) c = map Z.of_nat (positions 0 (map (fun a => memZ a c) l)).
Proof. unfold where_isin; rewrite singles_length; apply where_from. Qed.

Lemma seq_sorted k n : StronglySorted lt (seq k n).
Proof. revert k; induction n as [|n IH]; intros k; cbn [seq]; constructor; [apply IH|]; apply Forall_forall; intros i Hi; apply in_seq in Hi; lia. Qed.

(* setting the new numbers *)
Lemma set_nth_length (m : list Z) i k : (i < length m)%nat -> length (firstn i m ++ k :: skipn (S i) m) = length m.
Proof. intros H; rewrite app_length, firstn_length; cbn [length]; rewrite skipn_length; lia. Qed.
Lemma set_nth_nth (m : list Z) i k j d : (i < length m)%nat -> nth j (firstn i m ++ k :: skipn (S i) m) d = if Nat.eqb j i then k else nth j m d.
Proof.
  revert i j; induction m as [|a m IH]; intros i j H; [cbn in H; lia|].
  destruct i as [|i]; [destruct j; reflexivity|]; destruct j as [|j]; [reflexivity|].
  change (firstn (S i) (a :: m) ++ k :: skipn (S (S i)) (a :: m)) with (a :: (firstn i m ++ k :: skipn (S i) m)).
  cbn [nth Nat.eqb]; apply IH; cbn in H; lia.
Qed.
Lemma set_all_ok (m : list Z) K k : NoDup K -> (forall i, In i K -> (i < length m)%nat) ->
  exists m', set_all m (map Z.of_nat K) k = Ok m' /\ length m' = length m /\ (forall i, ~ In i K -> nth i m' (-1) = nth i m (-1)) /\
    (forall j i, nth_error K j = Some i -> nth i m' (-1) = k + Z.of_nat j).
Proof.
  intros N; revert m k; induction N as [|i K Hi _ IH]; intros m k H.
  { exists m; split; [reflexivity|split; [reflexivity|split; [reflexivity|intros [|j] i; discriminate]]]. }
  cbn [map set_all]; rewrite Nat2Z.id; assert (Hl : (i < length m)%nat) by (apply H; left; reflexivity).
  destruct (Nat.ltb_spec i (length m)); [|lia].
  destruct (IH (firstn i m ++ k :: skipn (S i) m) (k + 1)) as (m' & E & L & O & J).
  { intros j Hj; rewrite set_nth_length by exact Hl; apply H; right; exact Hj. }
  exists m'; split; [exact E|split; [rewrite L; apply set_nth_length; exact Hl|split]].
  - intros j Hj; rewrite O by (intros Hk; apply Hj; right; exact Hk); rewrite set_nth_nth by exact Hl.
    destruct (Nat.eqb_spec j i) as [->|]; [destruct Hj; left; reflexivity|reflexivity].
  - intros [|j] i' E'; [injection E' as <-; rewrite O by exact Hi; rewrite set_nth_nth by exact Hl; rewrite Nat.eqb_refl; lia|].
    rewrite (J j i' E'); lia.
Qed.
Lemma gather_in {B} (l : list B) (src : list Z) d : Forall (fun v => 0 <= v < Z.of_nat (length l)) src -> gather l src = Ok (map (fun v => nth (Z.to_nat v) l d) src).
Proof.
  intros F; induction F as [|v src Hv _ IH]; [reflexivity|]; cbn [gather map]; rewrite IH; unfold at_z; destruct (Z.ltb_spec v 0); [lia|]; cbv zeta; destruct (Z.ltb_spec v 0); [lia|].
  rewrite (nth_error_nth' l d) by lia; reflexivity.
Qed.
Lemma combine_maps {B C} (f : B -> C) (a b : list B) : combine (map f a) (map f b) = map (fun p => (f (fst p), f (snd p))) (combine a b).
Proof. revert b; induction a as [|x a IH]; intros [|y b]; cbn; try reflexivity; f_equal; apply IH. Qed.
Lemma filter_mapped {B C} (f : B -> C) q (l : list B) : filter q (map f l) = map f (filter (fun b => q (f b)) l).
Proof. induction l as [|b l IH]; [reflexivity|]; cbn [map filter]; destruct (q (f b)); cbn [map]; rewrite IH; reflexivity. Qed.

(* edge p of the subgraph is edge e of the graph, by the numbers K of its nodes *)
Lemma kept_ok K n src dst m' :
  length m' = n -> (forall i, ~ In i K -> nth i m' (-1) = -1) -> (forall j i, nth_error K j = Some i -> nth i m' (-1) = Z.of_nat j) ->
  length src = length dst -> src <> [] -> Forall (fun v => 0 <= v < Z.of_nat n) src -> Forall (fun v => 0 <= v < Z.of_nat n) dst ->
  exists e', kept_edges m' (Some [src; dst]) = Ok (Some e') /\
    renumbered K (filter (fun e => memZ (fst e) (map Z.of_nat K) && memZ (snd e) (map Z.of_nat K)) (combine src dst)) e'.
Proof.
  intros L O J E Ne Fs Fd; unfold kept_edges.
  destruct (Nat.eqb_spec (length (concat [src; dst])) 0) as [Ez|_]; [destruct src; [contradiction|cbn in Ez; discriminate]|].
  cbn [rows_of_edges bind].
  rewrite (gather_in m' src (-1)), (gather_in m' dst (-1)) by (rewrite L; assumption); cbn [bind]; eexists; split; [reflexivity|].
  rewrite combine_maps, filter_mapped.
  assert (Q : forall v, 0 <= v -> (memZ v (map Z.of_nat K) = true -> exists j, nth (Z.to_nat v) m' (-1) = Z.of_nat j /\ nth_error K j = Some (Z.to_nat v)) /\
    (memZ v (map Z.of_nat K) = false -> nth (Z.to_nat v) m' (-1) = -1)).
  { intros v Hv; split; intros Hm.
    - apply memZ_In, in_map_iff in Hm; destruct Hm as (i & <- & Hi); rewrite Nat2Z.id; apply In_nth_error in Hi; destruct Hi as (j & Hj); exists j; auto.
    - apply memZ_false in Hm; apply O; intros Hi; apply Hm; apply in_map_iff; exists (Z.to_nat v); split; [lia|exact Hi]. }
  assert (F2 : Forall (fun e => 0 <= fst e /\ 0 <= snd e) (combine src dst)).
  { apply Forall_forall; intros (a, b) Hab; rewrite Forall_forall in Fs, Fd; split; cbn; [apply (Fs a); eapply in_combine_l; exact Hab|apply (Fd b); eapply in_combine_r; exact Hab]. }
  clear - F2 Q.
  induction F2 as [|(a, b) l (Ha & Hb) _ IH]; [constructor|]; cbn [fst snd] in Ha, Hb; cbn [filter fst snd].
  destruct (Q a Ha) as (Qa1 & Qa0), (Q b Hb) as (Qb1 & Qb0).
  destruct (memZ a (map Z.of_nat K)) eqn:Ea.
  - destruct (Qa1 eq_refl) as (ja & Ja & Ka); rewrite Ja; destruct (memZ b (map Z.of_nat K)) eqn:Eb.
    + destruct (Qb1 eq_refl) as (jb & Jb & Kb); rewrite Jb.
      destruct (Z.leb_spec 0 (Z.of_nat ja)); [|lia]; destruct (Z.leb_spec 0 (Z.of_nat jb)); [|lia]; cbn [andb map fst snd].
      constructor; [|exact IH]; cbn [fst snd]; rewrite Ja, Jb.
      rewrite !Nat2Z.id, !nth_error_map, Ka, Kb; cbn [option_map]; rewrite !Z2Nat.id by lia; repeat split; lia.
    + rewrite (Qb0 eq_refl); destruct (Z.leb_spec 0 (Z.of_nat ja)); [|lia]; cbn [andb]; exact IH.
  - rewrite (Qa0 eq_refl); cbn [andb]; exact IH.
Qed.

(* masks *)
Lemma nth_pad {B} (l : list B) n d i : nth i (l ++ repeat d n) d = nth i l d.
Proof.
  destruct (Nat.ltb_spec i (length l)); [apply app_nth1; assumption|].
  rewrite app_nth2 by assumption; rewrite (nth_overflow l) by assumption; apply nth_repeat.
Qed.
Lemma mask_ok n K bs : (forall i, In i K -> (i < n)%nat) -> mask_of n (map Z.of_nat K) (singles bs) = Ok (map (fun i => nth i bs false) K).
Proof.
  intros H; unfold mask_of; rewrite concat_singles; cbv zeta.
  set (arr := if (length bs <? n)%nat then bs ++ repeat false (n - length bs) else bs).
  assert (La : (n <= length arr)%nat) by (unfold arr; destruct (Nat.ltb_spec (length bs) n); [rewrite app_length, repeat_length; lia|assumption]).
  assert (Na : forall i, nth i arr false = nth i bs false) by (intros i; unfold arr; destruct (Nat.ltb_spec (length bs) n); [apply nth_pad|reflexivity]).
  rewrite (map_ext _ (fun i => nth i arr false)) by (intros i; symmetry; apply Na).
  apply gather_picks, map_picks; intros i Hi; specialize (H i Hi); lia.
Qed.
Lemma masks_ok n K (ms : list (string * list bool)) : (forall i, In i K -> (i < n)%nat) ->
  masks_of n (map Z.of_nat K) (map (fun p => (fst p, singles (snd p))) ms) = Ok (map (fun p => (fst p, map (fun i => nth i (snd p) false) K)) ms).
Proof. intros H; induction ms as [|(k, bs) ms IH]; [reflexivity|]; cbn [map masks_of fst snd]; rewrite mask_ok by exact H; cbn [bind]; rewrite IH; reflexivity. Qed.

(* choosing nodes *)
Lemma of_nat_ascending all : StronglySorted lt all -> StronglySorted Z.lt (map Z.of_nat all).
Proof. intros H; induction H as [|a l _ IH F]; cbn [map]; constructor; [exact IH|]; apply Forall_forall; intros x Hx; apply in_map_iff in Hx; destruct Hx as (i & <- & Hi); rewrite Forall_forall in F; specialize (F i Hi); lia. Qed.
Lemma ascending_of_nat (l : list Z) : StronglySorted Z.lt l -> Forall (fun v => 0 <= v) l -> exists all, l = map Z.of_nat all /\ StronglySorted lt all.
Proof.
  intros H; induction H as [|a l _ IH F]; intros G; [exists []; split; [reflexivity|constructor]|].
  inversion G as [|? ? Ha Gl]; subst; destruct (IH Gl) as (all & -> & S); exists (Z.to_nat a :: all); split; [cbn [map]; rewrite Z2Nat.id by exact Ha; reflexivity|].
  constructor; [exact S|]; apply Forall_forall; intros i Hi; rewrite Forall_forall in F; specialize (F (Z.of_nat i) (in_map _ _ _ Hi)); lia.
Qed.

Section Choose.
Context (shuffle : Z -> nat -> list nat) (shuffle_ok : forall s n, Permutation (shuffle s n) (seq 0 n)).
Lemma shuffled_perm s idx : Permutation (shuffled shuffle s idx) idx.
Proof.
  unfold shuffled; etransitivity; [apply Permutation_map, shuffle_ok|].
  rewrite map_nth_seq; reflexivity.
Qed.
Lemma choose_ok max seed all : StronglySorted lt all -> (forall m, max = Some m -> 0 <= m) -> exists K,
  match max with
  | Some m => if m <? Z.of_nat (length (map Z.of_nat all)) then sortZ (upto m (match seed with Some s => shuffled shuffle s (map Z.of_nat all) | None => map Z.of_nat all end)) else map Z.of_nat all
  | None => map Z.of_nat all
  end = map Z.of_nat K /\ limited max seed all K /\ StronglySorted lt K /\ (forall s, seed = Some s -> Permutation K (drawn shuffle s all K)).
Proof.
  intros S Hm; assert (N := sorted_NoDup all S).
  assert (D : (forall m, max = Some m -> (length all <= Z.to_nat m)%nat) -> limited max seed all all).
  { intros H; split; [exact N|split; [apply incl_refl|split; [|intros _; rewrite firstn_all; reflexivity]]]; destruct max as [m|]; [specialize (H m eq_refl); lia|reflexivity]. }
  assert (DD : forall s, Permutation all (drawn shuffle s all all)).
  { intros s; unfold drawn; rewrite firstn_all2 by (rewrite (Permutation_length (shuffle_ok s (length all))), seq_length; lia).
    etransitivity; [|apply Permutation_map, Permutation_sym, shuffle_ok]; rewrite map_nth_seq; reflexivity. }
  destruct max as [m|]; [|exists all; split; [reflexivity|split; [apply D; discriminate|split; [exact S|intros s _; apply DD]]]].
  specialize (Hm m eq_refl); rewrite map_length; destruct (Z.ltb_spec m (Z.of_nat (length all))).
  2: { exists all; split; [reflexivity|split; [apply D; intros ? [= <-]; lia|split; [exact S|intros s _; apply DD]]]. }
  set (l := match seed with Some s => shuffled shuffle s (map Z.of_nat all) | None => map Z.of_nat all end).
  assert (Pl : Permutation l (map Z.of_nat all)) by (unfold l; destruct seed; [apply shuffled_perm|reflexivity]).
  assert (Nl : NoDup l) by (eapply NoDup_perm; [apply Permutation_sym; exact Pl|apply FinFun.Injective_map_NoDup; [intros a b; lia|exact N]]).
  assert (Ll : length l = length all) by (rewrite (Permutation_length Pl); apply map_length).
  set (f := upto m l); assert (Ef : f = firstn (Z.to_nat m) l) by (unfold f, upto; destruct (Z.ltb_spec m 0); [lia|reflexivity]).
  assert (Inf : forall v, In v f -> In v (map Z.of_nat all)).
  { intros v Hv; apply (Permutation_in _ Pl); rewrite <- (firstn_skipn (Z.to_nat m) l); apply in_or_app; left; rewrite <- Ef; exact Hv. }
  assert (Nf : NoDup f) by (rewrite Ef; rewrite <- (firstn_skipn (Z.to_nat m) l) in Nl; apply NoDup_app_iff in Nl; apply Nl).
  destruct (ascending_of_nat (sortZ f)) as (K & EK & SK).
  { apply sortZ_ascending; exact Nf. }
  { apply Forall_forall; intros v Hv; apply sortZ_In, Inf, in_map_iff in Hv; destruct Hv as (i & <- & _); lia. }
  assert (LK : length K = Z.to_nat m).
  { rewrite <- (map_length Z.of_nat K), <- EK, sortZ_length, Ef, firstn_length, Ll; lia. }
  exists K; split; [exact EK|split; [|split; [exact SK|]]].
  2: { intros s ->; unfold drawn; rewrite LK.
    assert (P1 : Permutation (map Z.to_nat (map Z.of_nat K)) (map Z.to_nat f)) by (apply Permutation_map; rewrite <- EK; apply sortZ_perm).
    rewrite map_map, (map_ext _ (fun i => i)), map_id in P1 by (intros i; apply Nat2Z.id).
    rewrite P1, Ef; unfold l, shuffled; rewrite map_length, firstn_map, map_map; erewrite map_ext; [reflexivity|].
    intros i; cbn beta; change 0 with (Z.of_nat 0); rewrite map_nth; apply Nat2Z.id. }
  split; [apply sorted_NoDup; exact SK|split; [|split]].
  - intros i Hi; assert (Hv : In (Z.of_nat i) (map Z.of_nat K)) by (apply in_map; exact Hi).
    rewrite <- EK in Hv; apply sortZ_In, Inf, in_map_iff in Hv; destruct Hv as (j & Ej & Hj); replace i with j by lia; exact Hj.
  - rewrite LK; lia.
  - intros [->|Hn]; [|discriminate]; rewrite LK; unfold l in Ef.
    assert (A : StronglySorted Z.lt f).
    { rewrite Ef, firstn_map; apply of_nat_ascending; clear - S; revert all S; induction (Z.to_nat m) as [|k IH]; intros all S; [constructor|].
      destruct S as [|a l S F]; [constructor|]; cbn [firstn]; constructor; [apply IH; exact S|].
      apply Forall_forall; intros x Hx; rewrite Forall_forall in F; apply F; rewrite <- (firstn_skipn k l); apply in_or_app; left; exact Hx. }
    rewrite sortZ_of_ascending in EK by exact A; rewrite Ef, firstn_map in EK.
    symmetry in EK; clear - EK; revert EK; generalize (firstn (Z.to_nat m) all); induction K as [|a K IH]; intros [|b l] E; try discriminate; [reflexivity|].
    cbn [map] in E; injection E as E1 E2; f_equal; [lia|apply IH; exact E2].
Qed.
End Choose.

Lemma subset_some {A} (g : graph A) keep : keep <> [] -> subset_graph g keep =
  let n := Nat.max (opt_rows (g_x g)) (opt_rows (g_y g)) in
  do mapping <- set_all (repeat (-1) n) keep 0;
  do e <- kept_edges mapping (g_edges g);
  do ms <- masks_of n keep (g_masks g);
  do x <- opt_gather (g_x g) keep;
  do y <- opt_gather (g_y g) keep;
  Ok {| s_x := x; s_y := y; s_edges := e; s_masks := ms |}.
Proof. destruct keep; [intros H; destruct (H eq_refl)|reflexivity]. Qed.
