(* Proofs about Laplace learning and conjugate gradient. *)
From Coq Require Import QArith Qminmax Qabs Lqa ZifyBool ZifyNat.
From Verif Require Import Prelude ListFacts SampleServiceProofs QFacts TransModel TransSpec TransProofs.
Local Open Scope Q_scope.
Local Open Scope list_scope.

(* ---------------------------------------------------------------- sums over nodes and over edges *)
Lemma sum_pick (g : nat -> Q) j l : NoDup l -> In j l -> Qsum (map (fun i => (if Nat.eqb i j then 1 else 0) * g i) l) == g j.
Proof.
  induction l as [|a l IH]; intros Hn Hj; [destruct Hj|]. inversion Hn as [|? ? Ha Hn']; subst. qs. destruct Hj as [->|Hj].
  - rewrite Nat.eqb_refl. rewrite (Qsum_zero _ l); [ring|]. intros x Hx. destruct (Nat.eqb_spec x j) as [->|]; [contradiction|ring].
  - rewrite (IH Hn' Hj). destruct (Nat.eqb_spec a j) as [->|]; [contradiction|ring].
Qed.
Lemma weight_sum E (g : nat -> Q) n i : in_range n E -> Qsum (map (fun j => weight_from E i j * g j) (seq 0 n)) == arriving E e_w (fun j _ => g j) i 0.
Proof.
  intros HE. unfold arriving, weight_from. induction E as [|e E IH].
  - apply Qsum_zero. intros x _. cbn [filter map]. qs. ring.
  - assert (IH' := IH (fun e' He' => HE e' (or_intror He'))). clear IH. cbn [filter]. assert (Hr := HE e (or_introl eq_refl)). destruct (e_dst e =? Z.of_nat i)%Z eqn:Ed.
    + cbn [map]. qs. rewrite <- IH'. rewrite <- (sum_pick (fun j => e_w e * g j) (Z.to_nat (e_src e)) (seq 0 n)); [|apply seq_NoDup|apply in_seq; lia]. rewrite <- Qsum_plus. apply Qsum_ext. intros j _.
      cbn [andb]. destruct (Nat.eqb_spec j (Z.to_nat (e_src e))) as [->|Hne].
      * replace (e_src e =? Z.of_nat (Z.to_nat (e_src e)))%Z with true by lia. cbn [map]. qs. ring.
      * replace (e_src e =? Z.of_nat j)%Z with false by lia. ring.
    + cbn [andb]. exact IH'.
Qed.
Lemma weight_total E n i : in_range n E -> Qsum (map (fun j => weight_from E i j) (seq 0 n)) == degree E (Z.of_nat i).
Proof.
  intros HE. transitivity (Qsum (map (fun j => weight_from E i j * 1) (seq 0 n))); [apply Qsum_ext; intros; ring|]. rewrite (weight_sum E (fun _ => 1) n i HE). unfold arriving, degree. apply Qsum_ext. intros e _. ring.
Qed.
Lemma weight_nonneg E i j : (forall e, In e E -> 0 <= e_w e) -> 0 <= weight_from E i j.
Proof. intros H. apply Qsum_nonneg. intros x Hx. apply in_map_iff in Hx as (e & <- & He). apply filter_In in He as [He _]. apply H, He. Qed.
Lemma adjacency_entry E n i j : (i < n)%nat -> (j < n)%nat -> entry (adjacency E n) i j = weight_from E i j.
Proof. intros Hi Hj. unfold adjacency. rewrite entry_tabulate by assumption. reflexivity. Qed.
Lemma adjacency_row E n i : in_range n E -> (i < n)%nat -> row_sum (adjacency E n) i == degree E (Z.of_nat i).
Proof.
  intros HE Hi. unfold adjacency. rewrite (row_sum_entries n n) by (try apply shape_tabulate; assumption). unfold sum_classes.
  rewrite <- (weight_total E n i HE). apply Qsum_ext. intros j Hj. apply in_seq in Hj. rewrite entry_tabulate by lia. reflexivity.
Qed.
Definition lap_entry (b : backend) (E : list edge) (i j : nat) : Q :=
  match b with
  | Numpy => if Nat.eqb i j then degree E (Z.of_nat i) else - weight_from E i j
  | Torch => (if Nat.eqb i j then degree E (Z.of_nat i) else 0) - weight_from E i j
  end.
Lemma laplacian_entry b E n i j : in_range n E -> (i < n)%nat -> (j < n)%nat -> entry (laplacian b (adjacency E n) n) i j == lap_entry b E i j.
Proof.
  intros HE Hi Hj. unfold laplacian, lap_entry. rewrite entry_tabulate by assumption. rewrite adjacency_entry by assumption. destruct b, (Nat.eqb i j); rewrite ?(adjacency_row E n i HE Hi); reflexivity.
Qed.

(* ---------------------------------------------------------------- indices of a mask *)
Lemma flatnonzero_In mask i : In i (flatnonzero mask) <-> nth i mask false = true.
Proof.
  unfold flatnonzero. rewrite in_map_iff. split.
  - intros ([j b] & <- & H). apply filter_In in H as [H Hb]. cbn in Hb. subst b. cbn [fst]. apply (In_nth _ _ (O, false)) in H as (p & Hp & E). rewrite combine_length, seq_length in Hp. rewrite combine_nth in E by apply seq_length. rewrite seq_nth in E by lia. injection E as E1 E2. cbn in E1. congruence.
  - intros H. assert (Hi : (i < List.length mask)%nat) by (destruct (Nat.lt_ge_cases i (List.length mask)) as [|Hge]; [assumption|]; rewrite nth_overflow in H by lia; discriminate).
    exists (i, true). split; [reflexivity|]. apply filter_In. split; [|reflexivity]. rewrite <- H. replace (i, nth i mask false) with (nth i (combine (seq 0 (List.length mask)) mask) (O, false)). { apply nth_In. rewrite combine_length, seq_length. lia. } rewrite combine_nth by apply seq_length. rewrite seq_nth by exact Hi. reflexivity.
Qed.
Lemma flatnonzero_NoDup mask : NoDup (flatnonzero mask).
Proof.
  unfold flatnonzero. assert (H : forall s m, NoDup (map fst (filter snd (combine (seq s (List.length m)) m))) /\ forall i, In i (map fst (filter snd (combine (seq s (List.length m)) m))) -> (s <= i)%nat).
  { intros s m. revert s. induction m as [|b m IH]; intros s; cbn [List.length seq combine filter snd]; [split; [constructor|intros ? []]|]. destruct (IH (S s)) as [H1 H2]. destruct b; cbn [map fst].
    - split; [constructor; [intros Hin; apply H2 in Hin; lia|exact H1]|]. intros i [<-|Hin]; [lia|apply H2 in Hin; lia].
    - split; [exact H1|]. intros i Hin. apply H2 in Hin. lia. }
  apply H.
Qed.
Lemma mask_partition mask : Permutation (flatnonzero mask ++ flatnonzero (map negb mask)) (seq 0 (List.length mask)).
Proof.
  apply NoDup_Permutation.
  - apply NoDup_app_iff. split; [apply flatnonzero_NoDup|]. split; [apply flatnonzero_NoDup|]. intros i Hi Hj. apply flatnonzero_In in Hi. apply flatnonzero_In in Hj.
    assert (Hlt : (i < List.length mask)%nat) by (destruct (Nat.lt_ge_cases i (List.length mask)) as [|Hge]; [assumption|]; rewrite nth_overflow in Hi by lia; discriminate).
    rewrite (nth_map_in negb mask i false) in Hj by exact Hlt. rewrite Hi in Hj. discriminate.
  - apply seq_NoDup.
  - intros i. rewrite in_app_iff, !flatnonzero_In, in_seq. split.
    + intros [H|H]; (destruct (Nat.lt_ge_cases i (List.length mask)) as [|Hge]; [lia|]; rewrite nth_overflow in H by (rewrite ?map_length; lia); discriminate).
    + intros Hi. rewrite (nth_map_in negb mask i false) by lia. destruct (nth i mask false); auto.
Qed.
Lemma unlabelled_In mask i : In i (flatnonzero (map negb mask)) <-> (i < List.length mask)%nat /\ nth i mask false = false.
Proof.
  rewrite flatnonzero_In. split.
  - intros H. assert (Hi : (i < List.length mask)%nat) by (destruct (Nat.lt_ge_cases i (List.length mask)) as [|Hge]; [assumption|]; rewrite nth_overflow in H by (rewrite map_length; lia); discriminate).
    split; [exact Hi|]. rewrite (nth_map_in negb mask i false) in H by exact Hi. destruct (nth i mask false); [discriminate|reflexivity].
  - intros [Hi H]. rewrite (nth_map_in negb mask i false) by exact Hi. rewrite H. reflexivity.
Qed.

(* ---------------------------------------------------------------- scattering rows *)
Lemma put_row_nth (F : mat) i r j : (i < List.length F)%nat -> nth j (firstn i F ++ r :: skipn (S i) F) [] = if Nat.eqb j i then r else nth j F [].
Proof.
  intros Hi. assert (Hf : List.length (firstn i F) = i) by (rewrite firstn_length; lia). destruct (Nat.eqb_spec j i) as [->|Hne].
  - rewrite app_nth2 by lia. rewrite Hf, Nat.sub_diag. reflexivity.
  - destruct (Nat.lt_ge_cases j i) as [Hlt|Hge].
    + rewrite app_nth1 by lia. rewrite <- (firstn_skipn i F) at 2. rewrite app_nth1 by lia. reflexivity.
    + rewrite app_nth2 by lia. rewrite Hf. destruct (j - i)%nat as [|d] eqn:Ed; [lia|]. cbn [nth]. rewrite <- (firstn_skipn (S i) F) at 2. rewrite app_nth2 by (rewrite firstn_length; lia). rewrite firstn_length. f_equal. lia.
Qed.
Lemma put_row_length (F : mat) i r : (i < List.length F)%nat -> List.length (firstn i F ++ r :: skipn (S i) F) = List.length F.
Proof. intros Hi. rewrite app_length. cbn [List.length]. rewrite firstn_length, skipn_length. lia. Qed.
Lemma scatter_spec : forall idx rows F, List.length rows = List.length idx -> NoDup idx -> (forall i, In i idx -> (i < List.length F)%nat) ->
  List.length (scatter F idx rows) = List.length F /\
  (forall p, (p < List.length idx)%nat -> nth (nth p idx O) (scatter F idx rows) [] = nth p rows []) /\
  (forall j, ~ In j idx -> nth j (scatter F idx rows) [] = nth j F []).
Proof.
  induction idx as [|i idx IH]; intros [|r rows] F Hl Hn Hb; try discriminate; cbn [scatter]; [split; [reflexivity|split; [intros p Hp; cbn in Hp; lia|reflexivity]]|].
  inversion Hn as [|? ? Hi Hn']; subst. assert (Hbi := Hb i (or_introl eq_refl)). destruct (IH rows (firstn i F ++ r :: skipn (S i) F)) as (H1 & H2 & H3).
  - cbn in Hl. lia.
  - exact Hn'.
  - intros j Hj. rewrite put_row_length by exact Hbi. apply Hb. right. exact Hj.
  - split; [rewrite H1; apply put_row_length, Hbi|]. split.
    + intros [|p] Hp; cbn [nth List.length] in *; [rewrite (H3 i Hi), put_row_nth by exact Hbi; rewrite Nat.eqb_refl; reflexivity|apply H2; lia].
    + intros j Hj. rewrite H3 by (intros Hin; apply Hj; right; exact Hin). rewrite put_row_nth by exact Hbi. destruct (Nat.eqb_spec j i) as [->|]; [exfalso; apply Hj; left; reflexivity|reflexivity].
Qed.
Lemma sum_by_index (l : list nat) (f : nat -> Q) (g : nat -> Q) : (forall p, (p < List.length l)%nat -> g p == f (nth p l O)) -> Qsum (map g (seq 0 (List.length l))) == Qsum (map f l).
Proof.
  intros H. transitivity (Qsum (map (fun p => f (nth p l O)) (seq 0 (List.length l)))); [apply Qsum_ext; intros p Hp; apply in_seq in Hp; apply H; lia|].
  assert (E := map_nth_seq l O). rewrite <- E at 2. rewrite map_map. reflexivity.
Qed.

(* ---------------------------------------------------------------- Laplace learning *)
Section LaplaceProofs.
Variable solve : mat -> mat -> option mat.
Hypothesis Hsolve : solves solve.
Lemma infer_bound y v : In v y -> (v < infer_num_classes y)%Z.
Proof.
  intros Hv. unfold infer_num_classes. destruct (Z.neg_nonneg_cases v) as [|Hv0]; [lia|]. assert (Hin : In v (filter (fun v => (v >=? 0)%Z) y)) by (apply filter_In; split; [exact Hv|lia]).
  destruct (filter (fun v => (v >=? 0)%Z) y) as [|a l]; [destruct Hin|]. assert (H : (v <= fold_right Z.max 0 (a :: l))%Z); [|lia].
  revert Hin. generalize (a :: l). clear. induction l as [|x l IH]; intros []; cbn [fold_right]; [lia|]. specialize (IH H). lia.
Qed.
(* the equations the returned scores satisfy *)
Lemma laplace_ok b n ei weight y mask F : laplace_learning solve b n ei weight y mask = Ok F -> exists E,
  let k := Z.to_nat (infer_num_classes y) in let nn := Z.to_nat n in
  validate_graph n ei weight = Ok E /\ in_range nn E /\ List.length y = nn /\ List.length mask = nn /\ List.length F = nn /\
  (forall i c, (i < nn)%nat -> (c < k)%nat -> nth i mask false = true -> entry F i c == target y mask i c) /\
  (forall u c, In u (flatnonzero (map negb mask)) -> (c < k)%nat ->
     Qsum (map (fun j => lap_entry b E u j * entry F j c) (flatnonzero (map negb mask))) == Qsum (map (fun j => weight_from E u j * entry F j c) (flatnonzero mask))) /\
  (forall z : nat -> Q, (forall u, In u (flatnonzero (map negb mask)) -> Qsum (map (fun j => lap_entry b E u j * z j) (flatnonzero (map negb mask))) == 0) -> forall u, In u (flatnonzero (map negb mask)) -> z u == 0).
Proof.
  unfold laplace_learning. intros H. inv_bind H. rename a into E0. destruct (validate_graph_ok _ _ _ _ E) as (Hn & Hr & _). destruct (lenZ y =? n)%Z eqn:Ey; cbn [negb] in H; [|discriminate]. destruct (lenZ mask =? n)%Z eqn:Em; cbn [negb] in H; [|discriminate].
  destruct (existsb (fun b => b) mask) eqn:Ea; cbn [negb] in H; [|discriminate]. inv_bind H. apply onehot_ok in E1 as (Hk & Hlt & ->). unfold lenZ in *.
  set (k := Z.to_nat (infer_num_classes y)) in *. set (nn := Z.to_nat n) in *. assert (Hy : List.length y = nn) by lia. assert (Hm : List.length mask = nn) by lia.
  set (Y := zero_unlabelled mask (map (onehot_row k) y)) in *. set (lab := flatnonzero mask) in *. set (unl := flatnonzero (map negb mask)) in *.
  assert (HY : shape nn k Y) by (apply zero_shape; [exact Hm|]; rewrite <- Hy; apply onehot_shape).
  assert (HYe : forall i c, (i < nn)%nat -> (c < k)%nat -> entry Y i c = target y mask i c) by (intros i c Hi Hc; apply label_entry; lia).
  exists E0. cbn zeta. split; [exact E|]. split; [exact Hr|]. split; [exact Hy|]. split; [exact Hm|].
  destruct unl as [|u0 unl0] eqn:Eu.
  { injection H as <-. split; [apply HY|]. split; [intros i c Hi Hc _; rewrite HYe by assumption; reflexivity|]. split; [intros u c []|intros z _ u []]. }
  rewrite <- Eu in H. rewrite <- Eu. clear Eu u0 unl0. 
  set (A := submat (laplacian b (adjacency E0 nn) nn) unl unl) in *. set (B := matmul (submat (adjacency E0 nn) unl lab) (map (fun i => nth i Y []) lab) k) in *.
  destruct (solve A B) as [Fu|] eqn:Es; [|discriminate]. injection H as <-.
  assert (Hub : forall u, In u unl -> (u < nn)%nat) by (intros u Hu; apply unlabelled_In in Hu; lia).
  assert (Hlb : forall u, In u lab -> (u < nn)%nat).
  { intros u Hu. apply flatnonzero_In in Hu. destruct (Nat.lt_ge_cases u (List.length mask)) as [|Hge]; [lia|]. rewrite nth_overflow in Hu by lia. discriminate. }
  assert (HA : shape (List.length unl) (List.length unl) A) by (unfold A, submat; split; [apply map_length|]; intros r Hr'; apply in_map_iff in Hr' as (i & <- & _); apply map_length).
  assert (HB : shape (List.length unl) k B) by (unfold B, matmul, submat; split; [rewrite !map_length; reflexivity|]; intros r Hr'; apply in_map_iff in Hr' as (i & <- & _); rewrite map_length, seq_length; reflexivity).
  destruct (Hsolve A B Fu (List.length unl) k (proj1 HA) (proj2 HA) (proj1 HB) (proj2 HB) Es) as (HX1 & HX2 & HX3 & HX4).
  set (F0 := tabulate nn k (fun _ _ => 0)). assert (HF0 : shape nn k F0) by apply shape_tabulate.
  destruct (scatter_spec lab (map (fun i => nth i Y []) lab) F0 (map_length _ _) (flatnonzero_NoDup mask) (fun i Hi => eq_ind_r (fun l => (i < l)%nat) (Hlb i Hi) (proj1 HF0))) as (S1 & S2 & S3).
  set (F1 := scatter F0 lab (map (fun i => nth i Y []) lab)) in *.
  destruct (scatter_spec unl Fu F1 HX1 (flatnonzero_NoDup _) (fun i Hi => eq_ind_r (fun l => (i < l)%nat) (Hub i Hi) (eq_trans S1 (proj1 HF0)))) as (T1 & T2 & T3).
  set (F := scatter F1 unl Fu) in *.
  assert (HFl : forall i c, In i lab -> entry F i c = entry Y i c).
  { intros i c Hi. unfold entry. rewrite T3.
    - apply (In_nth _ _ O) in Hi as (p & Hp & <-). rewrite S2 by exact Hp. rewrite (nth_map_in _ _ p O) by exact Hp. reflexivity.
    - intros Hu. apply unlabelled_In in Hu. apply flatnonzero_In in Hi. destruct Hu. congruence. }
  assert (HFu : forall p c, (p < List.length unl)%nat -> entry F (nth p unl O) c = entry Fu p c) by (intros p c Hp; unfold entry; rewrite T2 by exact Hp; reflexivity).
  assert (HAe : forall p s, (p < List.length unl)%nat -> (s < List.length unl)%nat -> entry A p s == lap_entry b E0 (nth p unl O) (nth s unl O)).
  { intros p s Hp Hs. unfold A, submat, entry. rewrite (nth_map_in _ _ p O) by exact Hp. rewrite (nth_map_in _ _ s O) by exact Hs. apply laplacian_entry; [exact Hr| |]; apply Hub, nth_In; assumption. }
  split; [rewrite T1, S1; apply HF0|]. split; [|split].
  - intros i c Hi Hc Hml. rewrite HFl by (apply flatnonzero_In, Hml). rewrite HYe by assumption. reflexivity.
  - intros u c Hu Hc. apply (In_nth _ _ O) in Hu as (p & Hp & <-). specialize (HX3 p c Hp Hc).
    rewrite (sum_by_index unl (fun j => lap_entry b E0 (nth p unl O) j * entry F j c)) in HX3 by (intros s Hs; rewrite (HAe p s Hp Hs), (HFu s c Hs); reflexivity).
    rewrite HX3. unfold B, matmul, entry at 1. rewrite (nth_map_in _ _ p []) by (unfold submat; rewrite map_length; exact Hp). rewrite (nth_map_in _ _ c O) by (rewrite seq_length; exact Hc). rewrite seq_nth by exact Hc. cbn [plus].
    unfold submat. rewrite (nth_map_in _ _ p O) by exact Hp. assert (Hc1 : forall (l : list nat) f1 f2, combine (map f1 l) (map f2 l) = map (fun j : nat => (f1 j : Q, f2 j : list Q)) l) by (intros l f1 f2; induction l; [reflexivity|cbn; rewrite IHl; reflexivity]).
    rewrite Hc1, map_map. apply Qsum_ext. intros j Hj. cbn [fst snd]. rewrite adjacency_entry by (first [apply Hub, nth_In; assumption | apply Hlb; assumption]). rewrite (HFl j c Hj). reflexivity.
  - intros z Hz u Hu. apply (In_nth _ _ O) in Hu as (p & Hp & <-). apply (HX4 (fun s => z (nth s unl O))); [|exact Hp]. intros r Hr'.
    rewrite (sum_by_index unl (fun j => lap_entry b E0 (nth r unl O) j * z j)) by (intros s Hs; rewrite (HAe r s Hr' Hs); reflexivity). apply Hz, nth_In, Hr'.
Qed.
Definition extra (b : backend) (E : list edge) (u : nat) : Q := match b with Numpy => weight_from E u u | Torch => 0 end.
Lemma lap_sum b E u z l : NoDup l -> In u l ->
  Qsum (map (fun j => lap_entry b E u j * z j) l) == (degree E (Z.of_nat u) + extra b E u) * z u - Qsum (map (fun j => weight_from E u j * z j) l).
Proof using Type.
  intros Hn Hu. rewrite <- (sum_pick (fun j => (degree E (Z.of_nat u) + extra b E u) * z j) u l Hn Hu). rewrite <- Qsum_minus. apply Qsum_ext. intros j _. unfold lap_entry, extra.
  destruct b, (Nat.eqb_spec u j) as [->|Hne]; rewrite ?Nat.eqb_refl; try (destruct (Nat.eqb_spec j u) as [->|]; [contradiction|]); ring.
Qed.
Lemma arriving_split E mask nn u (f : nat -> nat -> Q) c : in_range nn E -> List.length mask = nn ->
  arriving E e_w f u c == Qsum (map (fun j => weight_from E u j * f j c) (flatnonzero mask)) + Qsum (map (fun j => weight_from E u j * f j c) (flatnonzero (map negb mask))).
Proof using Type.
  intros HE Hm. change (arriving E e_w f u c) with (arriving E e_w (fun j _ => f j c) u 0). rewrite <- (weight_sum E (fun j => f j c) nn u HE). rewrite <- Qsum_app, <- map_app. apply Qsum_perm, Permutation_map, Permutation_sym. rewrite <- Hm. apply mask_partition.
Qed.
Lemma degree_split E mask nn u : in_range nn E -> List.length mask = nn ->
  degree E (Z.of_nat u) == Qsum (map (weight_from E u) (flatnonzero mask)) + Qsum (map (weight_from E u) (flatnonzero (map negb mask))).
Proof using Type.
  intros HE Hm. rewrite <- (weight_total E nn u HE). rewrite <- Qsum_app, <- map_app. apply Qsum_perm, Permutation_map, Permutation_sym. rewrite <- Hm. apply mask_partition.
Qed.
Lemma laplace_harmonic b n ei weight y mask F : laplace_learning solve b n ei weight y mask = Ok F -> exists E,
  let k := Z.to_nat (infer_num_classes y) in let nn := Z.to_nat n in
  validate_graph n ei weight = Ok E /\ List.length F = nn /\
  (forall i c, (i < nn)%nat -> (c < k)%nat -> nth i mask false = true -> entry F i c == target y mask i c) /\
  (forall u c, (u < nn)%nat -> (c < k)%nat -> nth u mask false = false -> (degree E (Z.of_nat u) + extra b E u) * entry F u c == arriving E e_w (entry F) u c).
Proof.
  intros H. destruct (laplace_ok _ _ _ _ _ _ _ H) as (E & HG & HE & Hy & Hm & HF & Hl & Hu & _). exists E. cbn zeta. split; [exact HG|]. split; [exact HF|]. split; [exact Hl|]. intros u c Hun Hc Hmu.
  assert (Hin : In u (flatnonzero (map negb mask))) by (apply unlabelled_In; split; [lia|exact Hmu]). specialize (Hu u c Hin Hc). rewrite (lap_sum b E u (fun j => entry F j c) _ (flatnonzero_NoDup _) Hin) in Hu.
  rewrite (arriving_split E mask _ u (entry F) c HE Hm). rewrite <- Hu. ring.
Qed.
Lemma target_row y mask i k : has_label y mask i -> (nth i y (-1) < Z.of_nat k)%Z -> sum_classes k (target y mask i) == 1.
Proof using Type.
  intros [Hm Hy] Hk. unfold sum_classes. rewrite <- (sum_pick (fun _ => 1) (Z.to_nat (nth i y (-1)%Z)) (seq 0 k)); [|apply seq_NoDup|apply in_seq; lia]. apply Qsum_ext. intros c _. unfold target. rewrite Hm. cbn [andb].
  destruct (Nat.eqb_spec c (Z.to_nat (nth i y (-1)%Z))) as [->|Hne]; [replace (nth i y (-1) =? Z.of_nat (Z.to_nat (nth i y (-1))))%Z with true by lia; ring|replace (nth i y (-1) =? Z.of_nat c)%Z with false by lia; ring].
Qed.
Section Stochastic.
Variables (b : backend) (n : Z) (ei : list (Z * Z)) (weight : option (list Q)) (y : list Z) (mask : list bool) (F : mat) (E : list edge).
Hypothesis HF : laplace_learning solve b n ei weight y mask = Ok F.
Hypothesis HG : validate_graph n ei weight = Ok E.
Hypothesis Hself : forall u, (u < Z.to_nat n)%nat -> nth u mask false = false -> extra b E u == 0.
Hypothesis Hlab : forall i, nth i mask false = true -> (0 <= nth i y (-1))%Z.
Let k := Z.to_nat (infer_num_classes y).
Let nn := Z.to_nat n.
Lemma laplace_rows i : (i < nn)%nat -> sum_classes k (entry F i) == 1.
Proof.
  destruct (laplace_ok _ _ _ _ _ _ _ HF) as (E' & HG' & HE & Hy & Hm & _ & Hl & Hu & Hz). rewrite HG in HG'. injection HG' as <-. fold k in Hl, Hu. fold nn in HE, Hy, Hm, Hl.
  assert (Hlrow : forall i, (i < nn)%nat -> nth i mask false = true -> sum_classes k (entry F i) == 1).
  { intros j Hj Hmj. transitivity (sum_classes k (target y mask j)); [apply Qsum_ext; intros c Hc; apply in_seq in Hc; apply Hl; [assumption|lia|assumption]|].
    apply target_row; [split; [exact Hmj|apply Hlab, Hmj]|]. unfold k. assert (Hb := infer_bound y (nth j y (-1)%Z)). assert (Hin : In (nth j y (-1)%Z) y) by (apply nth_In; lia). specialize (Hb Hin). specialize (Hlab _ Hmj). lia. }
  intros Hi. destruct (nth i mask false) eqn:Hmi; [apply Hlrow; assumption|].
  assert (H0 : sum_classes k (entry F i) - 1 == 0); [|lra].
  apply (Hz (fun j => sum_classes k (entry F j) - 1)); [|apply unlabelled_In; split; [lia|exact Hmi]]. intros u Hin. assert (Hu' := proj1 (unlabelled_In mask u) Hin). destruct Hu' as [Hun Hum].
  (* the sum over the classes of the equations, minus the degree *)
  transitivity (Qsum (map (fun c => Qsum (map (fun j => lap_entry b E u j * entry F j c) (flatnonzero (map negb mask)))) (seq 0 k)) - Qsum (map (fun j => lap_entry b E u j * 1) (flatnonzero (map negb mask)))).
  { rewrite (Qsum_swap (fun c j => lap_entry b E u j * entry F j c)). rewrite <- Qsum_minus. apply Qsum_ext. intros j _. rewrite Qsum_scale. unfold sum_classes. ring. }
  rewrite (lap_sum b E u (fun _ => 1) _ (flatnonzero_NoDup _) Hin). rewrite (Hself u ltac:(unfold nn in *; lia) Hum). rewrite (degree_split E mask nn u HE Hm).
  transitivity (Qsum (map (fun c => Qsum (map (fun j => weight_from E u j * entry F j c) (flatnonzero mask))) (seq 0 k)) - Qsum (map (weight_from E u) (flatnonzero mask))).
  { assert (H1 : Qsum (map (fun c => Qsum (map (fun j => lap_entry b E u j * entry F j c) (flatnonzero (map negb mask)))) (seq 0 k)) == Qsum (map (fun c => Qsum (map (fun j => weight_from E u j * entry F j c) (flatnonzero mask))) (seq 0 k))) by (apply Qsum_ext; intros c Hc; apply in_seq in Hc; apply Hu; [exact Hin|lia]).
    rewrite H1. rewrite (Qsum_ext (fun j => weight_from E u j * 1) (weight_from E u)) by (intros; ring). ring. }
  rewrite (Qsum_swap (fun c j => weight_from E u j * entry F j c)).
  rewrite (Qsum_ext (fun j => Qsum (map (fun c => weight_from E u j * entry F j c) (seq 0 k))) (weight_from E u)); [ring|]. intros j Hj. rewrite Qsum_scale. apply flatnonzero_In in Hj.
  assert (Hjn : (j < nn)%nat) by (destruct (Nat.lt_ge_cases j (List.length mask)) as [|Hge]; [lia|]; rewrite nth_overflow in Hj by lia; discriminate). assert (H1 := Hlrow j Hjn Hj). unfold sum_classes in H1. rewrite H1. ring.
Qed.
Hypothesis Hw : forall e, In e E -> 0 <= e_w e.
Hypothesis Hsym : symmetric E.
Lemma argmin (f : nat -> Q) l : l <> [] -> exists a, In a l /\ forall x, In x l -> f a <= f x.
Proof using Type.
  induction l as [|a l IH]; intros H; [congruence|]. destruct l as [|b' l]; [exists a; split; [left; reflexivity|intros x [->|[]]; lra]|].
  destruct (IH ltac:(discriminate)) as (m & Hm & Hmin). destruct (Qlt_le_dec (f a) (f m)) as [Hlt|Hle].
  - exists a. split; [left; reflexivity|]. intros x [->|Hx]; [lra|]. specialize (Hmin x Hx). lra.
  - exists m. split; [right; exact Hm|]. intros x [->|Hx]; [exact Hle|apply Hmin, Hx].
Qed.
Lemma laplace_nonneg i c : (i < nn)%nat -> (c < k)%nat -> 0 <= entry F i c.
Proof.
  destruct (laplace_ok _ _ _ _ _ _ _ HF) as (E' & HG' & HE & Hy & Hm & _ & Hl & Hu & Hz). rewrite HG in HG'. injection HG' as <-. fold k in Hl, Hu. fold nn in HE, Hy, Hm, Hl. intros Hi Hc.
  assert (Hlab0 : forall j, (j < nn)%nat -> nth j mask false = true -> 0 <= entry F j c) by (intros j Hj Hmj; rewrite (Hl j c Hj Hc Hmj); unfold target; destruct (_ && _); lra).
  destruct (nth i mask false) eqn:Hmi; [apply Hlab0; assumption|].
  set (unl := flatnonzero (map negb mask)) in *. assert (Hin : In i unl) by (apply unlabelled_In; split; [lia|exact Hmi]).
  destruct (argmin (fun j => entry F j c) unl) as (a & Ha & Hmin); [intros Hnil; rewrite Hnil in Hin; destruct Hin|]. set (m := entry F a c) in *.
  destruct (Qlt_le_dec m 0) as [Hneg|Hpos]; [exfalso|specialize (Hmin i Hin); cbn beta in Hmin; lra].
  assert (Hall : forall j, (j < nn)%nat -> m <= entry F j c).
  { intros j Hj. destruct (nth j mask false) eqn:Hmj; [specialize (Hlab0 j Hj Hmj); lra|]. apply Hmin, unlabelled_In. split; [lia|exact Hmj]. }
  (* a node at the minimum has only neighbours at the minimum *)
  assert (Hharm : forall u, In u unl -> entry F u c == m -> forall j, (j < nn)%nat -> weight_from E u j == 0 \/ entry F j c == m).
  { intros u Huin Hum. assert (Hu' := proj1 (unlabelled_In mask u) Huin). assert (Heq := Hu u c Huin Hc). rewrite (lap_sum b E u (fun j => entry F j c) unl (flatnonzero_NoDup _) Huin) in Heq. rewrite (Hself u) in Heq by (unfold nn in *; lia || apply Hu').
    assert (Hsum : Qsum (map (fun j => weight_from E u j * (entry F j c - m)) (seq 0 nn)) == 0).
    { transitivity (Qsum (map (fun j => weight_from E u j * entry F j c) (seq 0 nn)) - Qsum (map (weight_from E u) (seq 0 nn)) * m).
      { rewrite <- Qsum_scale_r. rewrite <- Qsum_minus. apply Qsum_ext. intros; ring. }
      rewrite (weight_total E nn u HE). rewrite (weight_sum E (fun j => entry F j c) nn u HE). change (arriving E e_w (fun j _ => entry F j c) u 0) with (arriving E e_w (entry F) u c).
      rewrite (arriving_split E mask nn u (entry F) c HE Hm). fold unl. rewrite Hum in Heq. rewrite <- Heq. ring. }
    intros j Hj. assert (Hzj : weight_from E u j * (entry F j c - m) == 0).
    { apply (Qsum_zero_inv (map (fun j => weight_from E u j * (entry F j c - m)) (seq 0 nn))); [|exact Hsum|apply in_map_iff; exists j; split; [reflexivity|apply in_seq; lia]].
      intros x Hx. apply in_map_iff in Hx as (j' & <- & Hj'). apply in_seq in Hj'. assert (H1 := weight_nonneg E u j' Hw). assert (H2 := Hall j' ltac:(lia)). apply Qmult_le_0_compat; lra. }
    apply Qmult_integral in Hzj as [Hzj|Hzj]; [left; exact Hzj|right; lra]. }
  assert (H1 : (if Qeq_bool (entry F a c) m then 1 else 0) == 0).
  { apply (Hz (fun j => if Qeq_bool (entry F j c) m then 1 else 0)); [|exact Ha]. intros u Huin. assert (Hu' := proj1 (unlabelled_In mask u) Huin).
    rewrite (lap_sum b E u _ unl (flatnonzero_NoDup _) Huin). rewrite (Hself u) by (unfold nn in *; lia || apply Hu').
    destruct (Qeq_bool (entry F u c) m) eqn:Eu.
    - apply Qeq_bool_iff in Eu. assert (Hn := Hharm u Huin Eu). rewrite (degree_split E mask nn u HE Hm). fold unl.
      rewrite (Qsum_zero (weight_from E u) (flatnonzero mask)).
      2:{ intros j Hj. apply flatnonzero_In in Hj. assert (Hjn : (j < nn)%nat) by (destruct (Nat.lt_ge_cases j (List.length mask)) as [|Hge]; [lia|]; rewrite nth_overflow in Hj by lia; discriminate).
          destruct (Hn j Hjn) as [H0|H0]; [exact H0|]. specialize (Hlab0 j Hjn Hj). lra. }
      rewrite (Qsum_ext (fun j => weight_from E u j * (if Qeq_bool (entry F j c) m then 1 else 0)) (weight_from E u)); [ring|]. intros j Hj. assert (Hj' := proj1 (unlabelled_In mask j) Hj).
      destruct (Hn j ltac:(lia)) as [H0|H0]; [rewrite H0; ring|]. apply Qeq_bool_iff in H0. rewrite H0. ring.
    - rewrite Qsum_zero; [ring|]. intros j Hj. assert (Hj' := proj1 (unlabelled_In mask j) Hj). destruct (Qeq_bool (entry F j c) m) eqn:Ej; [|ring]. apply Qeq_bool_iff in Ej. rewrite (Hsym u j).
      destruct (Hharm j Hj Ej u ltac:(lia)) as [H0|H0]; [rewrite H0; ring|]. apply Qeq_bool_iff in H0. congruence. }
  assert (H2 : Qeq_bool (entry F a c) m = true) by (apply Qeq_bool_iff; reflexivity). rewrite H2 in H1. discriminate.
Qed.
Lemma laplace_range i c : (i < nn)%nat -> (c < k)%nat -> 0 <= entry F i c <= 1.
Proof.
  intros Hi Hc. split; [apply laplace_nonneg; assumption|]. rewrite <- (laplace_rows i Hi). unfold sum_classes.
  rewrite <- (sum_pick (entry F i) c (seq 0 k)); [|apply seq_NoDup|apply in_seq; lia]. apply Qsum_le. intros c' Hc'. apply in_seq in Hc'. assert (H := laplace_nonneg i c' Hi ltac:(lia)). destruct (Nat.eqb c' c); lra.
Qed.
End Stochastic.
End LaplaceProofs.
