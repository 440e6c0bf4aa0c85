From Coq Require Import QArith Qminmax Lqa String ZifyBool ZifyNat Lia.
From Verif Require Import Prelude QFacts ListFacts TbackModel TbackSpec.
Local Open Scope string_scope.
Local Open Scope Z_scope.
Local Open Scope list_scope.
Local Notation length := List.length.

Lemma nth_map_lt {A B} (f : A -> B) l i d d' : (i < length l)%nat -> nth i (map f l) d' = f (nth i l d).
Proof. revert i. induction l as [|x l IH]; intros [|i] H; cbn in *; try lia; [reflexivity|]. apply IH. lia. Qed.
Lemma shaped_zeros n k : shaped n k (zeros n k).
Proof. split; [apply repeat_length|]. intros r Hr. apply repeat_spec in Hr. subst. apply repeat_length. Qed.
Lemma at_zeros n k i c : at_ (zeros n k) i c = 0%Q.
Proof.
  unfold at_, zeros. assert (H : forall c, nth c (repeat 0%Q k) 0%Q = 0%Q) by (intros; apply nth_repeat).
  destruct (Nat.lt_ge_cases i n) as [Hi|Hi].
  - rewrite (nth_indep (repeat (repeat 0%Q k) n) [] (repeat 0%Q k)) by (rewrite repeat_length; exact Hi). rewrite nth_repeat. apply H.
  - rewrite (nth_overflow (repeat _ _)) by (rewrite repeat_length; exact Hi). destruct c; reflexivity.
Qed.
Lemma weights_given weight E w : ensure_edge_weight weight E = Ok w <-> given weight E w.
Proof.
  unfold ensure_edge_weight, given. destruct weight as [l|].
  - destruct (Nat.eqb_spec (length l) (length E)) as [Hl|Hl]; split.
    + intros [= <-]. auto.
    + intros [_ <-]. reflexivity.
    + discriminate.
    + intros [H1 H2]. subst. contradiction.
  - split.
    + intros [= <-]. split; [apply map_length|]. intros x Hx. apply in_map_iff in Hx. destruct Hx as (_ & <- & _). reflexivity.
    + intros [Hl H]. f_equal. revert w Hl H. induction E as [|e E IH]; intros [|x w]; cbn; try discriminate; [reflexivity|].
      intros [= Hl] H. rewrite (H x) by auto. f_equal. apply IH; auto.
Qed.

(* ---- positions *)
Lemma position_in n i : node n i -> position n i = Ok (Z.to_nat i).
Proof. unfold node, position. intros H. destruct (_ || _) eqn:E; [lia|]. replace (i <? 0) with false by lia. reflexivity. Qed.
Lemma position_lt n i p : position n i = Ok p -> (p < n)%nat.
Proof. unfold position. destruct (_ || _) eqn:E; [discriminate|]. intros [= <-]. destruct (i <? 0) eqn:?; lia. Qed.
Lemma positions_in n l : (forall i, In i l -> node n i) -> positions n l = Ok (map Z.to_nat l).
Proof.
  induction l as [|i l IH]; intros H; [reflexivity|]. cbn. rewrite position_in by (apply H; left; reflexivity). cbn.
  rewrite IH by (intros j Hj; apply H; right; exact Hj). reflexivity.
Qed.

(* ---- add.at *)
Lemma nth_update {A} (l : list A) i j f d : (i < length l)%nat -> nth j (update l i f) d = if Nat.eqb j i then f (nth i l d) else nth j l d.
Proof.
  revert i j. induction l as [|x l IH]; intros [|i] [|j] H; cbn in *; try lia; try reflexivity. apply IH. lia.
Qed.
Lemma update_shaped n k X i f : shaped n k X -> (forall r, length r = k -> length (f r) = k) -> shaped n k (update X i f).
Proof.
  intros [H1 H2] Hf. revert n i H1. induction X as [|r X IH]; intros n [|i] H1; cbn in *; try (split; assumption).
  - split; [exact H1|]. intros q [<-|Hq]; [apply Hf, H2; auto|apply H2; auto].
  - destruct n as [|n]; [discriminate|]. injection H1 as H1. destruct (IH (fun r Hr => H2 r (or_intror Hr)) n i H1) as [HA HB].
    split; [cbn; f_equal; exact HA|]. intros q [<-|Hq]; [apply H2; auto|apply HB, Hq].
Qed.
Lemma add_row_length u v k : length u = k -> length v = k -> length (add_row u v) = k.
Proof. intros Hu Hv. unfold add_row. rewrite map_length, combine_length. lia. Qed.
Lemma add_row_nth u v c k : length u = k -> length v = k -> (c < k)%nat -> nth c (add_row u v) 0%Q = (nth c u 0 + nth c v 0)%Q.
Proof.
  intros Hu Hv Hc. unfold add_row. rewrite (nth_map_lt _ _ _ (0%Q, 0%Q)) by (rewrite combine_length; lia). rewrite combine_nth by lia. reflexivity.
Qed.
Lemma add_at_spec n k l : forall out, shaped n k out -> (forall p, In p l -> (fst p < n)%nat /\ length (snd p) = k) ->
  shaped n k (add_at out l) /\
  forall i c, (i < n)%nat -> (c < k)%nat -> (at_ (add_at out l) i c == at_ out i c + Qsum (map (fun p : nat * list Q => if Nat.eqb (fst p) i then nth c (snd p) 0 else 0) l))%Q.
Proof.
  induction l as [|[d v] l IH]; intros out Hs Hl.
  - split; [exact Hs|]. intros i c _ _. cbn [map]. rewrite Qsum_nil. change (add_at out []) with out. ring.
  - cbn [add_at fold_left fst snd]. destruct (Hl (d, v) (or_introl eq_refl)) as [Hd Hv]. cbn in Hd, Hv.
    assert (Hs' : shaped n k (update out d (fun row => add_row row v))) by (apply update_shaped; [exact Hs|]; intros r Hr; apply add_row_length; assumption).
    destruct (IH _ Hs' (fun p Hp => Hl p (or_intror Hp))) as [HA HB]. split; [exact HA|]. intros i c Hi Hc.
    fold (add_at (update out d (fun row => add_row row v)) l). rewrite (HB i c Hi Hc). cbn [map fst snd]. rewrite Qsum_cons.
    unfold at_ at 1. rewrite nth_update by (destruct Hs; lia). rewrite (Nat.eqb_sym d i). destruct (Nat.eqb_spec i d) as [->|Hne].
    + rewrite (add_row_nth _ _ c k); [unfold at_; ring| |exact Hv|exact Hc]. destruct Hs as [H1 H2]. apply H2, nth_In. lia.
    + unfold at_. ring.
Qed.

Lemma received_sum E : forall w X n i c, length w = length E -> nodes n E ->
  (Qsum (map (fun p : nat * list Q => if Nat.eqb (fst p) i then nth c (snd p) 0 else 0)%Q
    (combine (map Z.to_nat (map snd E)) (map (fun p : Q * nat => scale (fst p) (nth (snd p) X [])) (combine w (map Z.to_nat (map fst E))))))
   == received E w X i c)%Q.
Proof.
  induction E as [|[s d] E IH]; intros [|q w] X n i c Hw Hn; try discriminate; [reflexivity|].
  cbn [map combine fst snd]. unfold received in *. cbn [map combine fst snd]. rewrite !Qsum_cons. injection Hw as Hw.
  rewrite (IH w X n i c Hw) by (intros s' d' H; apply Hn; right; exact H).
  destruct (Hn s d (or_introl eq_refl)) as [H1 H2]. unfold node in *.
  destruct (Nat.eqb_spec (Z.to_nat d) i) as [Hd|Hd].
  - replace (d =? Z.of_nat i) with true by lia. unfold at_, scale.
    destruct (Nat.lt_ge_cases c (length (nth (Z.to_nat s) X []))) as [Hc|Hc].
    + rewrite (nth_map_lt _ _ _ 0%Q) by exact Hc. reflexivity.
    + rewrite (nth_overflow (map _ _)) by (rewrite map_length; exact Hc). rewrite (nth_overflow (nth _ X [])) by exact Hc. ring.
  - replace (d =? Z.of_nat i) with false by lia. reflexivity.
Qed.
Lemma received_nil w X i c : (received [] w X i c == 0)%Q. Proof. reflexivity. Qed.

Lemma np_spmm_ok n k E weight w X : given weight E w -> nodes n E -> shaped n k X ->
  exists R, np_spmm n k E weight false X = Ok R /\ shaped n k R /\ forall i c, (i < n)%nat -> (c < k)%nat -> (at_ R i c == received E w X i c)%Q.
Proof.
  intros Hw Hn HX. destruct E as [|e0 E0].
  { exists (zeros n k). repeat split; try apply shaped_zeros. intros. rewrite at_zeros. reflexivity. }
  remember (e0 :: E0) as E eqn:HE. assert (HwE := proj2 (weights_given weight E w) Hw).
  assert (Hf : np_spmm n k E weight false X = Ok (add_at (zeros n k) (combine (map Z.to_nat (map snd E)) (map (fun p : Q * nat => scale (fst p) (nth (snd p) X [])) (combine w (map Z.to_nat (map fst E))))))).
  { unfold np_spmm. rewrite HE at 1. rewrite HwE. cbn [bind]. rewrite positions_in.
    - cbn [bind]. rewrite positions_in; [reflexivity|]. intros d Hd. apply in_map_iff in Hd. destruct Hd as ((s & d') & <- & Hin). apply (Hn s d' Hin).
    - destruct HX as [HX _]. rewrite HX. intros s Hs. apply in_map_iff in Hs. destruct Hs as ((s' & d') & <- & Hin). apply (Hn s' d' Hin). }
  eexists. split; [exact Hf|]. destruct (add_at_spec n k (combine (map Z.to_nat (map snd E)) (map (fun p : Q * nat => scale (fst p) (nth (snd p) X [])) (combine w (map Z.to_nat (map fst E))))) (zeros n k) (shaped_zeros n k)) as [HA HB].
  { intros [d v] Hp. assert (Hd := in_combine_l _ _ _ _ Hp). assert (Hv := in_combine_r _ _ _ _ Hp). cbn. split.
    - apply in_map_iff in Hd. destruct Hd as (z & <- & Hz). apply in_map_iff in Hz. destruct Hz as ((s & d') & <- & Hin). assert (H := proj2 (Hn s d' Hin)). unfold node in H. cbn. lia.
    - apply in_map_iff in Hv. destruct Hv as ((q & j) & <- & Hq). apply in_combine_r in Hq. apply in_map_iff in Hq. destruct Hq as (z & <- & Hz). apply in_map_iff in Hz.
      destruct Hz as ((s & d') & <- & Hin). assert (H := proj1 (Hn s d' Hin)). unfold node in H. cbn. unfold scale. rewrite map_length. destruct HX as [H1 H2]. apply H2, nth_In. lia. }
  split; [exact HA|]. intros i c Hi Hc. rewrite (HB i c Hi Hc), at_zeros. rewrite (received_sum E w X n i c (proj1 Hw) Hn). ring.
Qed.

(* ---- the coalesced product *)
Lemma Qsum_filter {A} (f : A -> bool) (g : A -> Q) l : (Qsum (map g (filter f l)) == Qsum (map (fun x => if f x then g x else 0) l))%Q.
Proof. induction l as [|x l IH]; [reflexivity|]. cbn [filter map]. rewrite Qsum_cons. destruct (f x); cbn [map]; rewrite ?Qsum_cons, IH; [reflexivity|ring]. Qed.
Lemma Qsum_prod {A B} (g : A * B -> Q) la lb : (Qsum (map g (list_prod la lb)) == Qsum (map (fun a => Qsum (map (fun b => g (a, b)) lb)) la))%Q.
Proof. induction la as [|a la IH]; [reflexivity|]. cbn [list_prod map]. rewrite map_app, Qsum_app, Qsum_cons, IH, map_map. reflexivity. Qed.
Lemma Qsum_one (g : nat -> Q) j l : NoDup l -> In j l -> (Qsum (map (fun i => if Nat.eqb i j then g i else 0) l) == g j)%Q.
Proof.
  induction l as [|a l IH]; intros Hn Hj; [destruct Hj|]. inversion Hn as [|? ? Ha Hn']; subst. cbn [map]. rewrite Qsum_cons. destruct Hj as [->|Hj].
  - rewrite Nat.eqb_refl. rewrite Qsum_zero; [ring|]. intros x Hx. destruct (Nat.eqb_spec x j) as [->|]; [contradiction|reflexivity].
  - rewrite (IH Hn' Hj). destruct (Nat.eqb_spec a j) as [->|]; [contradiction|ring].
Qed.
Lemma no_place i j (l : list (Z * Z * Q)) : existsb (at_place i j) l = false -> filter (at_place i j) l = [].
Proof. induction l as [|e l IH]; [reflexivity|]. cbn. intros H. apply orb_false_iff in H. destruct H as [-> H]. apply IH, H. Qed.

Lemma coalesced_row n Ew (g : nat -> Q) i : (i < n)%nat -> (forall e, In e Ew -> node n (fst (fst e))) ->
  (Qsum (map (fun a : nat * nat * Q => snd a * g (snd (fst a))) (filter (fun a => Nat.eqb (fst (fst a)) i) (coalesced n Ew)))
   == Qsum (map (fun e : Z * Z * Q => if (snd (fst e) =? Z.of_nat i)%Z then snd e * g (Z.to_nat (fst (fst e))) else 0) Ew))%Q.
Proof.
  intros Hi Hn. rewrite Qsum_filter. unfold coalesced. rewrite map_map. cbn [fst snd]. rewrite Qsum_filter, Qsum_prod.
  assert (Hcell : forall a b : nat, ((if existsb (at_place a b) Ew then if Nat.eqb a i then Qsum (map snd (filter (at_place a b) Ew)) * g b else 0 else 0)
      == (if Nat.eqb a i then Qsum (map (fun e : Z * Z * Q => if at_place a b e then snd e * g b else 0) Ew) else 0))%Q).
  { intros a b. destruct (Nat.eqb a i); [|destruct (existsb _ _); reflexivity]. rewrite <- (Qsum_filter (at_place a b) (fun e : Z * Z * Q => (snd e * g b)%Q)).
    rewrite (Qsum_scale_r (g b) (fun e : Z * Z * Q => snd e)).
    destruct (existsb (at_place a b) Ew) eqn:Hex; [reflexivity|]. rewrite (no_place _ _ _ Hex). cbn. ring. }
  rewrite (Qsum_ext _ (fun a : nat => if Nat.eqb a i then Qsum (map (fun b : nat => Qsum (map (fun e : Z * Z * Q => if at_place a b e then snd e * g b else 0) Ew)) (seq 0 n)) else 0)%Q).
  2:{ intros a Ha. cbn [fst snd]. destruct (Nat.eqb_spec a i) as [->|Hne].
      - apply Qsum_ext. intros b Hb. assert (H := Hcell i b). rewrite Nat.eqb_refl in H. exact H.
      - apply Qsum_zero. intros b Hb. destruct (existsb _ _); reflexivity. }
  rewrite (Qsum_one (fun a : nat => Qsum (map (fun b : nat => Qsum (map (fun e : Z * Z * Q => if at_place a b e then snd e * g b else 0)%Q Ew)) (seq 0 n))) i (seq 0 n) (seq_NoDup n 0)) by (apply in_seq; lia).
  rewrite Qsum_swap. apply Qsum_ext. intros e He. assert (Hs := Hn e He). unfold node in Hs. unfold at_place.
  destruct (snd (fst e) =? Z.of_nat i) eqn:Hd; cbn [andb].
  - rewrite (Qsum_ext _ (fun b : nat => if Nat.eqb b (Z.to_nat (fst (fst e))) then snd e * g b else 0)%Q).
    + apply (Qsum_one (fun b => (snd e * g b)%Q)); [apply seq_NoDup|apply in_seq; lia].
    + intros b Hb. destruct (Nat.eqb_spec b (Z.to_nat (fst (fst e)))) as [->|Hne].
      * replace (_ =? _)%Z with true by lia. reflexivity.
      * replace (_ =? _)%Z with false by lia. reflexivity.
  - apply Qsum_zero. reflexivity.
Qed.
Lemma shaped_table n k (f : nat -> nat -> Q) : shaped n k (map (fun i => map (f i) (seq 0 k)) (seq 0 n)).
Proof. split; [rewrite map_length; apply seq_length|]. intros r Hr. apply in_map_iff in Hr. destruct Hr as (i & <- & _). rewrite map_length. apply seq_length. Qed.
Lemma at_table n k (f : nat -> nat -> Q) i c : (i < n)%nat -> (c < k)%nat -> at_ (map (fun i => map (f i) (seq 0 k)) (seq 0 n)) i c = f i c.
Proof.
  intros Hi Hc. unfold at_. rewrite (nth_map_lt _ _ _ 0%nat) by (rewrite seq_length; exact Hi). rewrite seq_nth by exact Hi. cbn [plus].
  rewrite (nth_map_lt _ _ _ 0%nat) by (rewrite seq_length; exact Hc). rewrite seq_nth by exact Hc. reflexivity.
Qed.
Lemma inside_node n i : inside n i = true <-> node n i.
Proof. unfold inside, node. lia. Qed.
Lemma all_inside n E : forallb (fun e : Z * Z => inside n (snd e) && inside n (fst e)) E = true <-> nodes n E.
Proof.
  rewrite forallb_forall. unfold nodes. split.
  - intros H s d Hin. specialize (H (s, d) Hin). cbn in H. apply andb_prop in H. rewrite !inside_node in H. tauto.
  - intros H [s d] Hin. cbn. specialize (H s d Hin). rewrite (proj2 (inside_node n s)), (proj2 (inside_node n d)) by tauto. reflexivity.
Qed.
Lemma combine_fst_in {A B} (l : list A) (m : list B) p : In p (combine l m) -> In (fst p) l.
Proof. destruct p. apply in_combine_l. Qed.
Lemma torch_spmm_ok n k E weight w X : given weight E w -> nodes n E -> shaped n k X ->
  exists R, torch_spmm n k E weight X = Ok R /\ shaped n k R /\ forall i c, (i < n)%nat -> (c < k)%nat -> (at_ R i c == received E w X i c)%Q.
Proof.
  intros Hw Hn HX. destruct E as [|e0 E0].
  { exists (zeros n k). repeat split; try apply shaped_zeros. intros. rewrite at_zeros. reflexivity. }
  remember (e0 :: E0) as E eqn:HE. assert (HwE := proj2 (weights_given weight E w) Hw).
  assert (Hf : torch_spmm n k E weight X = Ok (sparse_mm n k (coalesced n (combine E w)) X)).
  { unfold torch_spmm. rewrite HE at 1. rewrite HwE. cbn [bind]. rewrite (proj2 (all_inside n E) Hn). cbn [negb]. destruct HX as [HX _]. rewrite HX, Nat.eqb_refl. reflexivity. }
  eexists. split; [exact Hf|]. split; [apply shaped_table|]. intros i c Hi Hc. unfold sparse_mm. rewrite at_table by assumption.
  apply (coalesced_row n (combine E w) (fun j => nth c (nth j X []) 0%Q) i Hi).
  intros e He. apply combine_fst_in in He. destruct (fst e) as [s d] eqn:Hfe. cbn. apply (Hn s d He).
Qed.

(* ---- when torch answers *)
Lemma torch_spmm_inv n k E weight X R : torch_spmm n k E weight X = Ok R -> E = [] \/ exists w, given weight E w /\ nodes n E /\ length X = n.
Proof.
  destruct E as [|e0 E0]; [auto|]. remember (e0 :: E0) as E eqn:HE. intros H. right. unfold torch_spmm in H. rewrite HE in H at 1.
  destruct (ensure_edge_weight weight E) as [w|] eqn:Hw; [|discriminate]. cbn [bind] in H. destruct (forallb _ E) eqn:Hn; [|discriminate]. cbn [negb] in H.
  destruct (Nat.eqb_spec (length X) n) as [Hl|]; [|discriminate]. exists w. rewrite <- weights_given. rewrite <- all_inside. auto.
Qed.

Lemma positions_ok n l : (exists ps, positions n l = Ok ps) <-> forall i, In i l -> - Z.of_nat n <= i < Z.of_nat n.
Proof.
  induction l as [|a l IH]; cbn [positions].
  - split; [intros _ i []|eauto].
  - unfold position. destruct ((a <? - Z.of_nat n) || (Z.of_nat n <=? a)) eqn:Ea; cbn [bind].
    + split; [intros [ps H]; discriminate|]. intros H. specialize (H a (or_introl eq_refl)). lia.
    + split.
      * intros [ps H] i [<-|Hi]; [lia|]. apply IH; [|exact Hi]. destruct (positions n l); [eauto|discriminate].
      * intros H. destruct (proj2 IH (fun i Hi => H i (or_intror Hi))) as [ps ->]. cbn. eauto.
Qed.
(* ---- degrees *)
Lemma degrees_spec n l : forall d0, length d0 = n -> (forall p, In p l -> (fst p < n)%nat) ->
  length (fold_left (fun d p => update d (fst p) (fun x => (x + snd p)%Q)) l d0) = n /\
  forall i, (i < n)%nat -> (nth i (fold_left (fun d (p : nat * Q) => update d (fst p) (fun x => (x + snd p)%Q)) l d0) 0
                            == nth i d0 0 + Qsum (map (fun p : nat * Q => if Nat.eqb (fst p) i then snd p else 0) l))%Q.
Proof.
  induction l as [|[j q] l IH]; intros d0 Hd Hl.
  - cbn. split; [exact Hd|]. intros. ring.
  - cbn [fold_left fst snd]. assert (Hj := Hl (j, q) (or_introl eq_refl)). cbn in Hj.
    assert (Hlen : forall (l : list Q) i f, length (update l i f) = length l) by (clear; induction l as [|x l IH]; intros [|i] f; cbn; congruence).
    destruct (IH (update d0 j (fun x => (x + q)%Q)) ltac:(rewrite Hlen; exact Hd) (fun p Hp => Hl p (or_intror Hp))) as [HA HB].
    split; [exact HA|]. intros i Hi. rewrite (HB i Hi). rewrite nth_update by lia. cbn [map fst snd]. rewrite Qsum_cons, (Nat.eqb_sym j i).
    destruct (Nat.eqb_spec i j) as [->|]; ring.
Qed.
Lemma arriving_sum E : forall w n i, length w = length E -> (forall s d, In (s, d) E -> node n d) ->
  (Qsum (map (fun p : nat * Q => if Nat.eqb (fst p) i then snd p else 0) (combine (map Z.to_nat (map snd E)) w)) == arriving E w (Z.of_nat i))%Q.
Proof.
  induction E as [|[s d] E IH]; intros [|q w] n i Hw Hn; try discriminate; [reflexivity|].
  cbn [map combine fst snd]. unfold arriving in *. cbn [map combine fst snd]. rewrite !Qsum_cons. injection Hw as Hw.
  rewrite (IH w n i Hw) by (intros s' d' H; apply (Hn s' d'); right; exact H).
  assert (H2 := Hn s d (or_introl eq_refl)). unfold node in *.
  destruct (Nat.eqb_spec (Z.to_nat d) i) as [Hd|Hd].
  - replace (d =? Z.of_nat i) with true by lia. reflexivity.
  - replace (d =? Z.of_nat i) with false by lia. reflexivity.
Qed.
Lemma degrees_arriving n E w i : length w = length E -> (forall s d, In (s, d) E -> node n d) -> (i < n)%nat ->
  (nth i (degrees n (combine (map Z.to_nat (map snd E)) w)) 0 == arriving E w (Z.of_nat i))%Q.
Proof.
  intros Hw Hn Hi. unfold degrees. assert (Hp : forall p, In p (combine (map Z.to_nat (map snd E)) w) -> (fst p < n)%nat).
  { intros [j q] Hp. apply in_combine_l in Hp. apply in_map_iff in Hp. destruct Hp as (z & <- & Hz). apply in_map_iff in Hz. destruct Hz as ((s & d) & <- & Hin).
    assert (H := Hn s d Hin). unfold node in H. cbn. lia. }
  rewrite (proj2 (degrees_spec n _ (repeat 0%Q n) (repeat_length _ _) Hp) i Hi). rewrite nth_repeat, (arriving_sum E w n i Hw Hn). ring.
Qed.

Section Normalise.
Variable root : Q -> Q.
Variable eps : Q.
(* what an edge's weight becomes *)
Definition target (mode : string) (E : list (Z * Z)) (w : list Q) (e : Z * Z) (q : Q) : Q :=
  let deg i := Qmax (arriving E w i) eps in
  if String.eqb mode "rw" then (q / deg (snd e))%Q else if String.eqb mode "sym" then (q / root (deg (snd e) * deg (fst e)))%Q else q.

(* torch accepts fewer edge lists, and answers alike *)
Lemma torch_np_normalize n E weight mode R : torch_normalize root eps n E weight mode = Ok R -> np_normalize root eps n E weight mode = Ok R.
Proof.
  unfold torch_normalize, np_normalize. destruct (ensure_edge_weight weight E) as [w|]; [|discriminate]. cbn [bind].
  destruct E as [|e0 E0]; [auto|]. remember (e0 :: E0) as E eqn:HE. destruct (forallb _ E) eqn:Hn; [|discriminate]. cbn [negb]. intros H.
  rewrite positions_in.
  - cbn [bind]. rewrite <- (map_map snd Z.to_nat) in H. exact H.
  - intros d Hd. apply in_map_iff in Hd. destruct Hd as (e & <- & He). apply inside_node. rewrite forallb_forall in Hn. apply Hn, He.
Qed.
Hypothesis root_ext : forall x y, (x == y)%Q -> (root x == root y)%Q.
Lemma normalize_spec n E weight w mode : given weight E w -> nodes n E -> In mode ["none"; "rw"; "sym"] ->
  exists R, torch_normalize root eps n E weight mode = Ok R /\ np_normalize root eps n E weight mode = Ok R /\ length R = length E /\
            forall j e q r, nth_error E j = Some e -> nth_error w j = Some q -> nth_error R j = Some r -> (r == target mode E w e q)%Q.
Proof.
  intros Hw Hn Hm. assert (HwE := proj2 (weights_given weight E w) Hw). destruct Hw as [Hl _].
  assert (HR : exists R, torch_normalize root eps n E weight mode = Ok R /\ length R = length E /\
            forall j e q r, nth_error E j = Some e -> nth_error w j = Some q -> nth_error R j = Some r -> (r == target mode E w e q)%Q).
  2:{ destruct HR as (R & H1 & H2 & H3). exists R. split; [exact H1|]. split; [apply torch_np_normalize, H1|]. auto. }
  unfold torch_normalize. rewrite HwE. cbn [bind]. destruct E as [|e0 E0].
  { exists w. repeat split; auto. intros [|j] e q r He; discriminate. }
  remember (e0 :: E0) as E eqn:HE. assert (Hi : forallb (fun e : Z * Z => inside n (snd e)) E = true).
  { apply forallb_forall. intros [s d] He. apply inside_node. apply (Hn s d He). }
  rewrite Hi. cbn [negb]. assert (Hsrc : positions n (map fst E) = Ok (map Z.to_nat (map fst E))).
  { apply positions_in. intros s Hs. apply in_map_iff in Hs. destruct Hs as ((s' & d) & <- & Hin). apply (Hn s' d Hin). }
  rewrite <- (map_map snd Z.to_nat). unfold target. rewrite Hsrc. cbn [bind].
  set (deg := degrees n (combine (map Z.to_nat (map snd E)) w)).
  assert (Hdeg : forall z, node n z -> (clamped eps deg (Z.to_nat z) == Qmax (arriving E w z) eps)%Q).
  { intros z Hz. unfold clamped, deg. rewrite (degrees_arriving n E w (Z.to_nat z) Hl); [|intros s d Hin; apply (Hn s d Hin)|unfold node in Hz; lia].
    unfold node in Hz. rewrite Z2Nat.id by lia. reflexivity. }
  assert (Hpick : forall {A B C} (l : list A) (m : list B) (g : A * B -> C) j r, nth_error (map g (combine l m)) j = Some r ->
            exists a b, nth_error l j = Some a /\ nth_error m j = Some b /\ r = g (a, b)).
  { clear. intros A B C l. induction l as [|a l IH]; intros [|b m] g [|j] r H; try discriminate; cbn in H.
    - injection H as <-. exists a, b. auto.
    - apply (IH m g j r H). }
  destruct Hm as [<-|[<-|[<-|[]]]]; cbn [String.eqb Ascii.eqb Bool.eqb].
  - exists w. repeat split; auto. intros j e q r _ Hq Hr. rewrite Hq in Hr. injection Hr as ->. reflexivity.
  - eexists. split; [reflexivity|]. split; [rewrite map_length, combine_length, !map_length; lia|]. intros j e q r He Hq Hr.
    destruct (Hpick _ _ _ _ _ _ _ _ Hr) as (a & b & Ha & Hb & ->). rewrite Ha in Hq. injection Hq as ->. cbn [fst snd].
    rewrite !nth_error_map, He in Hb. cbn in Hb. injection Hb as <-. rewrite (Hdeg (snd e)); [reflexivity|]. destruct e as [s d]. apply (Hn s d). apply (nth_error_In E j He).
  - eexists. split; [reflexivity|]. split; [rewrite map_length, !combine_length, !map_length; lia|]. intros j e q r He Hq Hr.
    destruct (Hpick _ _ _ _ _ _ _ _ Hr) as (a & b & Ha & Hb & ->). rewrite Ha in Hq. injection Hq as ->. cbn [fst snd].
    rewrite <- (map_id (combine _ _)) in Hb. destruct (Hpick _ _ _ _ _ _ _ _ Hb) as (x & y & Hx & Hy & ->). rewrite !nth_error_map, He in Hx, Hy. cbn in Hx, Hy. injection Hx as <-. injection Hy as <-. cbn [fst snd].
    destruct e as [s d]. destruct (Hn s d (nth_error_In E j He)) as [Hs Hd]. cbn [fst snd]. 
    assert (Hr' : (root (clamped eps deg (Z.to_nat d) * clamped eps deg (Z.to_nat s)) == root (Qmax (arriving E w d) eps * Qmax (arriving E w s) eps))%Q) by (apply root_ext; rewrite (Hdeg d Hd), (Hdeg s Hs); reflexivity).
    rewrite Hr'. reflexivity.
Qed.
End Normalise.

(* ---- differences *)
Lemma sub_shaped n k X A : shaped n k X -> shaped n k A -> shaped n k (sub X A).
Proof.
  intros [H1 H2] [H3 H4]. split; [unfold sub; rewrite map_length, combine_length; lia|]. intros r Hr. apply in_map_iff in Hr. destruct Hr as ((u & v) & <- & Hp).
  unfold sub_row. cbn. rewrite map_length, combine_length. rewrite (H2 u (in_combine_l _ _ _ _ Hp)), (H4 v (in_combine_r _ _ _ _ Hp)). lia.
Qed.
Lemma sub_at n k X A i c : shaped n k X -> shaped n k A -> (i < n)%nat -> (c < k)%nat -> at_ (sub X A) i c = (at_ X i c - at_ A i c)%Q.
Proof.
  intros [H1 H2] [H3 H4] Hi Hc. unfold at_, sub. rewrite (nth_map_lt _ _ _ ([], [])) by (rewrite combine_length; lia). rewrite combine_nth by lia. cbn [fst snd]. unfold sub_row.
  assert (L1 : length (nth i X []) = k) by (apply H2, nth_In; lia). assert (L2 : length (nth i A []) = k) by (apply H4, nth_In; lia).
  rewrite (nth_map_lt _ _ _ (0%Q, 0%Q)) by (rewrite combine_length; lia). rewrite combine_nth by lia. reflexivity.
Qed.
(* the weights arriving at a node, each divided by their total *)
Lemma shares_sum E : forall w R (D : Z -> Q) i, length w = length E -> length R = length E ->
  (forall j e q r, nth_error E j = Some e -> nth_error w j = Some q -> nth_error R j = Some r -> (r == q / D (snd e))%Q) ->
  (arriving E R i == arriving E w i / D i)%Q.
Proof.
  induction E as [|[s d] E IH]; intros [|q w] [|r R] D i Hw HR H; try discriminate.
  - cbn. unfold Qdiv. ring.
  - unfold arriving in *. cbn [combine map fst snd]. rewrite !Qsum_cons. injection Hw as Hw. injection HR as HR.
    rewrite (IH w R D i Hw HR) by (intros j; apply (H (S j))). assert (H0 := H 0%nat (s, d) q r eq_refl eq_refl eq_refl). cbn in H0.
    destruct (d =? i) eqn:Hd; [|unfold Qdiv; ring]. assert (d = i) as -> by lia. rewrite H0. unfold Qdiv. ring.
Qed.
Lemma received_const E w X i c x : (forall s d, In (s, d) E -> (at_ X (Z.to_nat s) c == x)%Q) -> (received E w X i c == arriving E w (Z.of_nat i) * x)%Q.
Proof.
  intros H. unfold received, arriving. rewrite <- Qsum_scale_r. apply Qsum_ext. intros e He. apply combine_fst_in in He. destruct (fst e) as [s d] eqn:Hf. cbn [fst snd].
  destruct (d =? Z.of_nat i); [|ring]. rewrite (H s d He). reflexivity.
Qed.
