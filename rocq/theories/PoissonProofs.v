(* Poisson learning: the operator, the sources, and what conjugate gradient makes of them. *)
From Coq Require Import QArith Qminmax Qabs Lqa ZifyBool ZifyNat.
From Verif Require Import Prelude ListFacts SampleServiceProofs QFacts TransModel TransSpec TransProofs TransSolveProofs CgProofs PoissonModel PoissonSpec.
Local Open Scope Q_scope.
Local Open Scope list_scope.

Lemma over_ext n f g : (forall i, (i < n)%nat -> f i == g i) -> over_nodes n f == over_nodes n g.
Proof. intros H. apply Qsum_ext. intros i Hi. apply in_seq in Hi. apply H. lia. Qed.
Lemma over_linear n f g a : over_nodes n (fun i => f i + a * g i) == over_nodes n f + a * over_nodes n g.
Proof. unfold over_nodes. rewrite <- (Qsum_scale a g), <- Qsum_plus. reflexivity. Qed.
Lemma over_vec n (x : vec) : List.length x = n -> Qsum x == over_nodes n (fun i => nth i x 0).
Proof. intros H. rewrite (list_as_map x n H) at 1. reflexivity. Qed.
Lemma Qsum_filter {A} (p : A -> bool) (f : A -> Q) l : Qsum (map (fun x => if p x then f x else 0) l) == Qsum (map f (filter p l)).
Proof. induction l as [|a l IH]; [reflexivity|]. cbn [map filter]. rewrite Qsum_cons, IH. destruct (p a); [cbn [map]; rewrite Qsum_cons; reflexivity|lra]. Qed.
Lemma masked_nodes {A} (d : A) : forall mask (l : list A), List.length mask = List.length l -> masked mask l = map (fun i => nth i l d) (labelled_nodes (List.length l) mask).
Proof.
  unfold labelled_nodes, masked. induction mask as [|m mask IH]; intros [|a l] H; try discriminate; [reflexivity|].
  cbn [List.length seq filter combine]. change (nth 0 (m :: mask) false) with m. rewrite <- seq_shift. assert (HF : forall q, filter (fun i => nth i (m :: mask) false) (map S q) = map S (filter (fun i => nth i mask false) q)).
  { induction q as [|x q IHq]; [reflexivity|]. cbn [map filter]. rewrite IHq. change (nth (S x) (m :: mask) false) with (nth x mask false). destruct (nth x mask false); reflexivity. }
  rewrite HF. specialize (IH l ltac:(now injection H)).
  destruct m; cbn [filter fst map nth snd]; rewrite IH, map_map; reflexivity.
Qed.

(* ---- the operator *)
Section Operator.
Variables (root : Q -> Q) (tiny : Q) (kind : norm_mode) (eps : Q) (n : nat) (E : list edge).
Hypothesis HE : in_range n E.
Hypothesis Hn : (0 < n)%nat.
Local Notation op := (poisson_op root tiny kind eps n E).
Local Notation A := (poisson_matvec root tiny kind eps n E).
Lemma op_ext x z i : (i < n)%nat -> (forall j, (j < n)%nat -> x j == z j) -> op x i == op z i.
Proof using All.
  intros Hi H. unfold poisson_op. rewrite (H i Hi), (over_ext n x z H).
  rewrite (arriving_ext E (edge_share root tiny kind E) (fun j _ => x j) (fun j _ => z j) i 0); [reflexivity|]. intros e He. apply H. destruct (HE e He). lia.
Qed.
Lemma op_linear x p a i : op (fun j => x j + a * p j) i == op x i + a * op p i.
Proof using All.
  unfold poisson_op. rewrite over_linear. unfold arriving.
  rewrite (Qsum_ext (fun e => edge_share root tiny kind E e * (x (Z.to_nat (e_src e)) + a * p (Z.to_nat (e_src e))))
    (fun e => edge_share root tiny kind E e * x (Z.to_nat (e_src e)) + a * (edge_share root tiny kind E e * p (Z.to_nat (e_src e))))) by (intros; ring).
  rewrite Qsum_plus, Qsum_scale. assert (~ inject_Z (Z.of_nat n) == 0) by (intros Hc; unfold Qeq in Hc; cbn in Hc; lia). field. assumption.
Qed.
Lemma matvec_length x : List.length x = n -> List.length (A x) = n.
Proof using All.
  intros Hx. unfold poisson_matvec. cbv zeta. assert (HL : List.length (laplacian_matvec root tiny kind n E x) = n) by (unfold laplacian_matvec; rewrite map_length, seq_length; reflexivity).
  assert (HO : List.length (if Qeq_bool eps 0 then laplacian_matvec root tiny kind n E x else vadd (laplacian_matvec root tiny kind n E x) (vscale eps x)) = n).
  { destruct (Qeq_bool eps 0); [exact HL|]. rewrite vadd_length; [exact HL|]. rewrite vscale_length. congruence. }
  rewrite vadd_length; [exact HO|]. rewrite map_length, seq_length. exact HO.
Qed.
Lemma matvec_nth x i : List.length x = n -> (i < n)%nat -> nth i (A x) 0 == op (fun j => nth j x 0) i.
Proof using All.
  intros Hx Hi. unfold poisson_matvec. cbv zeta. assert (HL : List.length (laplacian_matvec root tiny kind n E x) = n) by (unfold laplacian_matvec; rewrite map_length, seq_length; reflexivity).
  assert (HV : nth i (laplacian_matvec root tiny kind n E x) 0 == nth i x 0 - arriving E (edge_share root tiny kind E) (fun j _ => nth j x 0) i 0).
  { unfold laplacian_matvec. rewrite nth_map_in with (da := 0%nat) by (rewrite seq_length; exact Hi). rewrite seq_nth by exact Hi. cbn [Nat.add]. unfold arriving. reflexivity. }
  assert (HM : nth i (map (fun _ : nat => Qmean x * 1) (seq 0 n)) 0 == over_nodes n (fun j => nth j x 0) / inject_Z (Z.of_nat n)).
  { rewrite nth_map_in with (da := 0%nat) by (rewrite seq_length; exact Hi). unfold Qmean, lenZ. rewrite Hx. rewrite <- (over_vec n x Hx). lra. }
  assert (HO : nth i (if Qeq_bool eps 0 then laplacian_matvec root tiny kind n E x else vadd (laplacian_matvec root tiny kind n E x) (vscale eps x)) 0 ==
               nth i x 0 - arriving E (edge_share root tiny kind E) (fun j _ => nth j x 0) i 0 + eps * nth i x 0).
  { destruct (Qeq_bool eps 0) eqn:E0; [apply Qeq_bool_iff in E0; rewrite HV, E0; ring|]. rewrite vadd_nth by (rewrite vscale_length; congruence). rewrite vscale_nth, HV. reflexivity. }
  rewrite vadd_nth; [rewrite HO, HM; reflexivity|]. rewrite map_length, seq_length. destruct (Qeq_bool eps 0); [exact HL|]. rewrite vadd_length; rewrite ?vscale_length; congruence.
Qed.
Lemma matvec_linear : linear n A.
Proof using All.
  split; [exact matvec_length|]. intros x p a Hx Hp. assert (Hap : List.length (vscale a p) = n) by (rewrite vscale_length; exact Hp). assert (Hs : List.length (vadd x (vscale a p)) = n) by (rewrite vadd_length; congruence).
  assert (HAp : List.length (vscale a (A p)) = n) by (rewrite vscale_length; apply matvec_length, Hp). assert (HAx := matvec_length x Hx).
  split; [rewrite matvec_length by exact Hs; rewrite vadd_length; congruence|]. intros i. destruct (Nat.lt_ge_cases i n) as [Hi|Hi].
  - rewrite (matvec_nth _ i Hs Hi), vadd_nth by congruence. rewrite vscale_nth, (matvec_nth x i Hx Hi), (matvec_nth p i Hp Hi), <- op_linear.
    apply op_ext; [exact Hi|]. intros j _. rewrite vadd_nth by congruence. rewrite vscale_nth. reflexivity.
  - rewrite (nth_overflow (A (vadd _ _))) by (rewrite matvec_length by exact Hs; exact Hi). rewrite nth_overflow by (rewrite vadd_length; [lia|congruence]). reflexivity.
Qed.
Lemma residual_missed (b x : vec) : List.length b = n -> List.length x = n -> residual2 A b x == missed n op (fun i => nth i b 0) (fun i => nth i x 0).
Proof using All.
  intros Hb Hx. unfold residual2, missed. assert (HAx := matvec_length x Hx). assert (HL : List.length (vsub b (A x)) = n) by (rewrite vsub_length; congruence). rewrite (dot_sum _ _ n HL HL).
  apply Qsum_ext. intros i Hi. apply in_seq in Hi. rewrite vsub_nth by congruence. rewrite matvec_nth by (auto; lia). reflexivity.
Qed.
Lemma dot_op x z : List.length x = n -> List.length z = n -> dot x (A z) == over_nodes n (fun i => nth i x 0 * op (fun j => nth j z 0) i).
Proof using All. intros Hx Hz. rewrite (dot_sum _ _ n Hx (matvec_length z Hz)). apply over_ext. intros i Hi. rewrite matvec_nth by auto. reflexivity. Qed.
End Operator.

Lemma over_squares_zero n x : over_nodes n (fun i => x i * x i) <= 0 -> forall i, (i < n)%nat -> x i == 0.
Proof.
  intros H i Hi. assert (Hz : x i * x i == 0).
  { assert (H0 : forall q : Q, 0 <= q * q) by (intros; nra). assert (HP : 0 <= over_nodes n (fun i => x i * x i)) by (apply Qsum_nonneg; intros q Hq; apply in_map_iff in Hq as (j & <- & _); apply H0).
    apply (Qsum_zero_inv (map (fun i => x i * x i) (seq 0 n))); [intros q Hq; apply in_map_iff in Hq as (j & <- & _); apply H0|unfold over_nodes in *; lra|]. apply in_map_iff. exists i. split; [reflexivity|apply in_seq; lia]. }
  nra.
Qed.

(* ---- the symmetric normalisation: positive definite *)
Section Positive.
Variables (root : Q -> Q) (tiny eps : Q) (n : nat) (E : list edge).
Hypothesis HE : in_range n E.
Hypothesis Hn : (0 < n)%nat.
Hypothesis Htiny : 0 < tiny.
Hypothesis Hw : forall e, In e E -> 0 <= e_w e.
Hypothesis Hsym : symmetric E.
Hypothesis Hroot : exact_products root tiny n E.
Local Notation op := (poisson_op root tiny Sym eps n E).
Local Notation D i := (Qmax (total_arriving E (Z.of_nat i)) tiny).
Definition share (i j : nat) : Q := weight_from E i j / root (D j * D i).
Lemma Qmult_comm_eq a b : Qmult a b = Qmult b a.
Proof. destruct a, b. unfold Qmult. cbn. rewrite Z.mul_comm, Pos.mul_comm. reflexivity. Qed.
Lemma share_sym i j : share i j == share j i.
Proof using All. unfold share. rewrite (Qmult_comm_eq (D j) (D i)), (Hsym i j). reflexivity. Qed.
Lemma D_pos i : 0 < D i.
Proof using Htiny. pose proof (Q.le_max_r (total_arriving E (Z.of_nat i)) tiny). lra. Qed.
Lemma arriving_share x i : (i < n)%nat -> arriving E (edge_share root tiny Sym E) (fun j _ => x j) i 0 == over_nodes n (fun j => share i j * x j).
Proof using All.
  intros Hi. transitivity (over_nodes n (fun j => weight_from E i j * (x j / root (D j * D i)))).
  - unfold over_nodes. rewrite (weight_sum E (fun j => x j / root (D j * D i)) n i HE). unfold arriving. apply Qsum_ext. intros e He. apply filter_In in He as [He Hd]. destruct (HE e He) as [H1 H2].
    unfold edge_share. assert (Hs : Z.of_nat (Z.to_nat (e_src e)) = e_src e) by lia. assert (Hd' : e_dst e = Z.of_nat i) by lia. rewrite Hs, Hd'. unfold Qdiv. ring.
  - apply over_ext. intros j Hj. unfold share, Qdiv. ring.
Qed.
Lemma over_swap (f : nat -> nat -> Q) : over_nodes n (fun i => over_nodes n (fun j => f i j)) == over_nodes n (fun j => over_nodes n (fun i => f i j)).
Proof. unfold over_nodes. apply Qsum_swap. Qed.
Lemma over_scale a f : over_nodes n (fun i => a * f i) == a * over_nodes n f.
Proof. apply Qsum_scale. Qed.
Lemma over_plus f g : over_nodes n (fun i => f i + g i) == over_nodes n f + over_nodes n g.
Proof. apply Qsum_plus. Qed.
Lemma op_pairs x z : over_nodes n (fun i => x i * op z i) ==
  (1 + eps) * over_nodes n (fun i => x i * z i) - over_nodes n (fun i => over_nodes n (fun j => share i j * (x i * z j))) + over_nodes n x * over_nodes n z / inject_Z (Z.of_nat n).
Proof using All.
  rewrite (over_ext n _ (fun i => (1 + eps) * (x i * z i) + ((-1) * over_nodes n (fun j => share i j * (x i * z j)) + (over_nodes n z / inject_Z (Z.of_nat n)) * x i))).
  - rewrite over_plus, over_plus, !over_scale. unfold Qdiv. ring.
  - intros i Hi. unfold poisson_op. rewrite (arriving_share z i Hi). rewrite (over_ext n (fun j => share i j * (x i * z j)) (fun j => x i * (share i j * z j))) by (intros; ring). rewrite over_scale. ring.
Qed.
Lemma op_symmetric x z : over_nodes n (fun i => x i * op z i) == over_nodes n (fun i => z i * op x i).
Proof using All.
  rewrite !op_pairs. rewrite (over_ext n (fun i => x i * z i) (fun i => z i * x i)) by (intros; ring).
  rewrite (over_swap (fun i j => share i j * (x i * z j))).
  rewrite (over_ext n (fun j => over_nodes n (fun i => share i j * (x i * z j))) (fun i => over_nodes n (fun j => share i j * (z i * x j)))); [unfold Qdiv; ring|].
  intros i Hi. apply over_ext. intros j Hj. rewrite (share_sym j i). ring.
Qed.
Lemma pair_bound x i j : (i < n)%nat -> (j < n)%nat -> share i j * (x i * x j) <= (1 # 2) * (weight_from E i j * (x i * x i / D i)) + (1 # 2) * (weight_from E i j * (x j * x j / D j)).
Proof using All.
  intros Hi Hj. unfold share. destruct (Hroot j i Hj Hi) as [Hr Hrr]. cbv zeta in Hr, Hrr. set (r := root (D j * D i)) in *. assert (HW := weight_nonneg E i j Hw). set (W := weight_from E i j) in *.
  assert (HDi := D_pos i). assert (HDj := D_pos j). set (di := D i) in *. set (dj := D j) in *.
  assert (Hsq : 0 <= di * ((x i / di - x j / r) * (x i / di - x j / r))).
  { apply Qmult_le_0_compat; [lra|]. generalize (x i / di - x j / r). intros q. nra. }
  assert (Hexp : di * ((x i / di - x j / r) * (x i / di - x j / r)) == x i * x i / di + x j * x j / dj - 2 * (x i * x j / r)).
  { assert (Hdj : dj == r * r / di) by (rewrite Hrr; field; lra). rewrite Hdj. field. split; lra. }
  rewrite Hexp in Hsq. assert (Hfin : 0 <= W * (x i * x i / di + x j * x j / dj - 2 * (x i * x j / r))) by (apply Qmult_le_0_compat; assumption).
  assert (Heq : W / r * (x i * x j) == W * (x i * x j / r)) by (unfold Qdiv; ring). rewrite Heq. lra.
Qed.
Lemma half_bound x : over_nodes n (fun i => over_nodes n (fun j => weight_from E i j * (x i * x i / D i))) <= over_nodes n (fun i => x i * x i).
Proof using All.
  apply Qsum_le. intros i Hi. apply in_seq in Hi. rewrite (over_ext n (fun j => weight_from E i j * (x i * x i / D i)) (fun j => (x i * x i / D i) * weight_from E i j)) by (intros; ring).
  rewrite over_scale. unfold over_nodes. rewrite (weight_total E n i HE). assert (HD := D_pos i). assert (Hle := Q.le_max_l (total_arriving E (Z.of_nat i)) tiny).
  change (degree E (Z.of_nat i)) with (total_arriving E (Z.of_nat i)). set (d := D i) in *. set (t := total_arriving E (Z.of_nat i)) in *.
  assert (Hx : 0 <= x i * x i) by nra. assert (Hq : 0 <= x i * x i / d) by (apply Qdiv_nonneg; assumption). assert (Heq : x i * x i == x i * x i / d * d) by (field; lra). rewrite Heq at 2. apply Qmult_le_lnn; assumption.
Qed.
Lemma op_large x : eps * over_nodes n (fun i => x i * x i) <= over_nodes n (fun i => x i * op x i).
Proof using All.
  rewrite op_pairs.
  assert (HB : over_nodes n (fun i => over_nodes n (fun j => share i j * (x i * x j))) <= over_nodes n (fun i => x i * x i)).
  { apply Qle_trans with (over_nodes n (fun i => over_nodes n (fun j => (1 # 2) * (weight_from E i j * (x i * x i / D i)) + (1 # 2) * (weight_from E i j * (x j * x j / D j))))).
    - apply Qsum_le. intros i Hi. apply in_seq in Hi. apply Qsum_le. intros j Hj. apply in_seq in Hj. apply pair_bound; lia.
    - rewrite (over_ext n _ (fun i => (1 # 2) * over_nodes n (fun j => weight_from E i j * (x i * x i / D i)) + (1 # 2) * over_nodes n (fun j => weight_from E i j * (x j * x j / D j)))) by (intros i Hi; rewrite over_plus, !over_scale; reflexivity).
      rewrite over_plus, !over_scale, (over_swap (fun i j => weight_from E i j * (x j * x j / D j))). assert (HH := half_bound x).
      rewrite (over_ext n (fun j => over_nodes n (fun i => weight_from E i j * (x j * x j / D j))) (fun i => over_nodes n (fun j => weight_from E i j * (x i * x i / D i)))) by (intros j Hj; apply over_ext; intros i Hi; rewrite (Hsym i j); reflexivity). lra. }
  assert (HM : 0 <= over_nodes n x * over_nodes n x / inject_Z (Z.of_nat n)).
  { apply Qdiv_nonneg; [generalize (over_nodes n x); intros; nra|]. unfold Qlt. cbn. lia. }
  lra.
Qed.
Lemma matvec_positive : 0 < eps -> positive_definite n (poisson_matvec root tiny Sym eps n E).
Proof using All.
  intros Heps. assert (Hlen := matvec_length root tiny Sym eps n E HE Hn). split.
  - intros x z Hx Hz. rewrite (dot_op root tiny Sym eps n E HE Hn x z Hx Hz), (dot_comm n (poisson_matvec root tiny Sym eps n E x) z (Hlen x Hx) Hz), (dot_op root tiny Sym eps n E HE Hn z x Hz Hx). apply op_symmetric.
  - intros x Hx (i & Hi). rewrite (dot_op root tiny Sym eps n E HE Hn x x Hx Hx). apply Qlt_le_trans with (eps * over_nodes n (fun i => nth i x 0 * nth i x 0)); [|apply op_large].
    apply Qmult_lt_0_compat; [exact Heps|]. apply Qnot_le_lt. intros Hc. apply Hi. destruct (Nat.lt_ge_cases i n) as [Hin|Hin]; [|rewrite nth_overflow by lia; reflexivity]. apply (over_squares_zero n _ Hc i Hin).
Qed.
(* how far an approximate solution is from an exact one *)
Lemma op_error b x f : 0 < eps -> (forall i, (i < n)%nat -> op f i == b i) -> eps * eps * over_nodes n (fun i => (x i - f i) * (x i - f i)) <= missed n op b x.
Proof using All.
  intros Heps Hf. set (d := fun i => x i + (-1) * f i).
  assert (Hd : forall i, (i < n)%nat -> b i - op x i == - op d i) by (intros i Hi; unfold d; rewrite (op_linear root tiny Sym eps n E HE Hn x f (-1) i), (Hf i Hi); ring).
  assert (HL := op_large d). assert (HS : 0 <= over_nodes n (fun i => (op d i - eps * d i) * (op d i - eps * d i))) by (apply Qsum_nonneg; intros q Hq; apply in_map_iff in Hq as (j & <- & _); generalize (op d j - eps * d j); intros; nra).
  assert (HX : over_nodes n (fun i => (op d i - eps * d i) * (op d i - eps * d i)) == over_nodes n (fun i => op d i * op d i) - 2 * eps * over_nodes n (fun i => d i * op d i) + eps * eps * over_nodes n (fun i => d i * d i)).
  { rewrite (over_ext n _ (fun i => op d i * op d i + ((- (2 * eps)) * (d i * op d i) + (eps * eps) * (d i * d i)))) by (intros; ring). rewrite over_plus, over_plus, !over_scale. ring. }
  assert (HMi : missed n op b x == over_nodes n (fun i => op d i * op d i)) by (unfold missed; apply over_ext; intros i Hi; rewrite (Hd i Hi); ring).
  rewrite HMi. rewrite (over_ext n (fun i => (x i - f i) * (x i - f i)) (fun i => d i * d i)) by (intros; unfold d; ring). rewrite HX in HS.
  assert (Hm : eps * (eps * over_nodes n (fun i => d i * d i)) <= eps * over_nodes n (fun i => d i * op d i)) by (apply Qmult_le_lnn; [lra|exact HL]).
  generalize dependent (over_nodes n (fun i => d i * op d i)). generalize (over_nodes n (fun i => op d i * op d i)) (over_nodes n (fun i => d i * d i)). intros. lra.
Qed.
End Positive.

(* ---- the sources *)
Lemma column_nth n M c i : (i < n)%nat -> nth i (column n M c) 0 = entry M i c.
Proof. intros Hi. unfold column. rewrite nth_map_in with (da := 0%nat) by (rewrite seq_length; exact Hi). rewrite seq_nth by exact Hi. reflexivity. Qed.
Lemma column_length n M c : List.length (column n M c) = n.
Proof. unfold column. rewrite map_length, seq_length. reflexivity. Qed.
Lemma labelled_In n mask i : In i (labelled_nodes n mask) <-> (i < n)%nat /\ nth i mask false = true.
Proof. unfold labelled_nodes. rewrite filter_In, in_seq. intuition lia. Qed.
Lemma share_mean n M mask c y : List.length mask = n -> (forall i, (i < n)%nat -> entry M i c = target y mask i c) -> Qmean (masked mask (column n M c)) = class_share n y mask c.
Proof.
  intros Hm HM. rewrite (masked_nodes 0) by (rewrite column_length; exact Hm). rewrite column_length. unfold Qmean, class_share. unfold lenZ. rewrite map_length. do 2 f_equal.
  apply map_ext_in. intros i Hi. apply labelled_In in Hi as [Hi _]. rewrite column_nth by exact Hi. apply HM, Hi.
Qed.
Lemma sources_entry n k y mask center i c : List.length mask = n -> List.length y = n -> (i < n)%nat -> (c < k)%nat ->
  entry (sources n k (zero_unlabelled mask (map (onehot_row k) y)) mask center) i c == source center n y mask i c.
Proof.
  intros Hm Hy Hi Hc. unfold sources. rewrite entry_tabulate by assumption. assert (HT : forall j, (j < n)%nat -> entry (zero_unlabelled mask (map (onehot_row k) y)) j c = target y mask j c) by (intros j Hj; apply label_entry; congruence || lia).
  unfold source. destruct center; cbv zeta.
  - rewrite (share_mean n _ mask c y Hm HT), (HT i Hi). destruct (nth i mask false); lra.
  - assert (HB : forall j, (j < n)%nat -> (if nth j mask false then 1 else 0) * entry (zero_unlabelled mask (map (onehot_row k) y)) j c == target y mask j c).
    { intros j Hj. rewrite (HT j Hj). unfold target. destruct (nth j mask false); cbn [andb]; [|lra]. destruct (_ =? _)%Z; lra. }
    rewrite (HB i Hi). unfold Qmean, lenZ. rewrite map_length, seq_length. rewrite (Qsum_ext _ (fun j => target y mask j c)) by (intros j Hj; apply in_seq in Hj; apply HB; lia). reflexivity.
Qed.
Lemma nodes_pos n mask : (exists i, (i < n)%nat /\ nth i mask false = true) -> 0 < inject_Z (lenZ (labelled_nodes n mask)).
Proof.
  intros (i & Hi). apply labelled_In in Hi. unfold lenZ. destruct (labelled_nodes n mask); [destruct Hi|]. unfold Qlt. cbn. lia.
Qed.
Lemma source_sum center n y mask c : (exists i, (i < n)%nat /\ nth i mask false = true) -> over_nodes n (fun i => source center n y mask i c) == 0.
Proof.
  intros Hl. unfold source. destruct center.
  - unfold over_nodes. rewrite (Qsum_filter (fun i => nth i mask false) (fun i => target y mask i c - class_share n y mask c)). fold (labelled_nodes n mask).
    rewrite Qsum_minus, Qsum_const. unfold class_share. assert (Hp := nodes_pos n mask Hl). field. lra.
  - unfold over_nodes. rewrite Qsum_minus, Qsum_const. unfold lenZ. rewrite seq_length. assert (Hn : ~ inject_Z (Z.of_nat n) == 0) by (destruct Hl as (i & Hi & _); unfold Qeq; cbn; lia). field. exact Hn.
Qed.
Lemma source_row n k y mask i : List.length y = n -> (forall j, (j < n)%nat -> nth j mask false = true -> (0 <= nth j y (-1) < Z.of_nat k)%Z) ->
  (i < n)%nat -> sum_classes k (source true n y mask i) == 0.
Proof.
  intros Hy Hr Hi. unfold source. destruct (nth i mask false) eqn:Em; [|apply Qsum_zero; reflexivity].
  assert (HT : forall j, (j < n)%nat -> nth j mask false = true -> sum_classes k (target y mask j) == 1) by (intros j Hj Hm; destruct (Hr j Hj Hm); apply target_row; [split; [exact Hm|lia]|lia]).
  unfold sum_classes at 1. rewrite Qsum_minus. fold (sum_classes k (target y mask i)). rewrite (HT i Hi Em).
  assert (HS : Qsum (map (class_share n y mask) (seq 0 k)) == 1).
  { unfold class_share. unfold Qdiv. rewrite (Qsum_scale_r (/ inject_Z (lenZ (labelled_nodes n mask)))). rewrite (Qsum_swap (fun c i => target y mask i c)).
    rewrite (Qsum_ext _ (fun _ => 1)) by (intros j Hj; apply labelled_In in Hj as [Hj Hm]; apply (HT j Hj Hm)). rewrite Qsum_const. assert (Hp := nodes_pos n mask (ex_intro _ i (conj Hi Em))). field. lra. }
  rewrite HS. ring.
Qed.

(* ---- the run *)
Lemma fold_Qmax l : forall a, a <= fold_left Qmax l a /\ (forall x, In x l -> x <= fold_left Qmax l a) /\ (fold_left Qmax l a == a \/ exists x, In x l /\ fold_left Qmax l a == x).
Proof.
  induction l as [|b l IH]; intros a; cbn [fold_left]; [split; [lra|split; [intros x []|left; reflexivity]]|].
  destruct (IH (Qmax a b)) as (H1 & H2 & H3). pose proof (Q.le_max_l a b). pose proof (Q.le_max_r a b). split; [lra|]. split; [intros x [->|Hx]; [lra|apply H2, Hx]|].
  destruct H3 as [H3|(x & Hx & H3)]; [|right; exists x; split; [right; exact Hx|exact H3]]. destruct (Q.max_spec a b) as [[_ Hm]|[_ Hm]]; [right; exists b; split; [left; reflexivity|]|left]; (eapply Qeq_trans; [exact H3|exact Hm]).
Qed.
Lemma fold_Zmax l lo hi : (forall x, In x l -> (lo <= x <= hi)%Z) -> forall a, (lo <= a <= hi)%Z -> (lo <= fold_left Z.max l a <= hi)%Z.
Proof. induction l as [|b l IH]; intros H a Ha; cbn [fold_left]; [exact Ha|]. apply IH; [intros x Hx; apply H; right; exact Hx|]. specialize (H b (or_introl eq_refl)). lia. Qed.
Lemma onehot_iff y k : (0 < k)%Z -> (forall v, In v y -> (v < k)%Z) -> labels_to_onehot y k = Ok (map (onehot_row (Z.to_nat k)) y).
Proof.
  intros Hk H. unfold labels_to_onehot. destruct (k <=? 0)%Z eqn:E; [lia|]. destruct (existsb _ y) eqn:E1; [|reflexivity]. apply existsb_exists in E1 as (v & Hv & E1). specialize (H v Hv). lia.
Qed.
Lemma distinct_pos y mask : List.length mask = List.length y -> existsb (fun b => b) mask = true -> (0 < n_distinct (masked mask y))%Z.
Proof.
  intros Hl He. apply existsb_exists in He as (b & Hb & Eb). subst b. apply (In_nth _ _ false) in Hb as (i & Hi & Em).
  assert (HI : In (nth i y (-1)%Z) (uniqueZ (masked mask y))) by (apply uniqueZ_In, (masked_In mask y _ (-1)%Z Hl); exists i; split; [lia|auto]). unfold n_distinct, lenZ. destruct (uniqueZ _); [destruct HI|]. cbn [List.length]. lia.
Qed.
Lemma distinct_values y mask : List.length mask = List.length y -> shown_values y mask (Z.to_nat (n_distinct (masked mask y))).
Proof.
  intros Hl. exists (uniqueZ (masked mask y)). split; [apply uniqueZ_NoDup|]. split; [unfold n_distinct, lenZ; lia|]. intros v. rewrite uniqueZ_In. apply masked_In, Hl.
Qed.
Lemma some_labelled mask : existsb (fun b => b) mask = true <-> exists i, nth i mask false = true.
Proof.
  rewrite existsb_exists. split.
  - intros (b & Hb & E). subst b. apply (In_nth _ _ false) in Hb as (i & _ & E). eauto.
  - intros (i & E). exists true. split; [|reflexivity]. rewrite <- E. apply nth_In. destruct (Nat.lt_ge_cases i (List.length mask)) as [|Hge]; [assumption|]. rewrite nth_overflow in E by lia. discriminate.
Qed.
Lemma masked_same : forall mask (a b : list Z), List.length a = List.length b -> (forall i, nth i mask false = true -> nth i a (-1)%Z = nth i b (-1)%Z) -> masked mask a = masked mask b.
Proof.
  unfold masked. induction mask as [|x m IH]; intros [|u a] [|v b] Hab Hi; try reflexivity; try discriminate. cbn [combine filter fst]. cbn [List.length] in Hab. assert (IH' := IH a b ltac:(lia) (fun i => Hi (S i))). destruct x; [|exact IH']. cbn [map snd]. rewrite IH'. f_equal. apply (Hi O). reflexivity.
Qed.
Lemma zeroed_same k : forall mask (a b : list Z), List.length a = List.length b -> (forall i, nth i mask false = true -> nth i a (-1)%Z = nth i b (-1)%Z) ->
  zero_unlabelled mask (map (onehot_row k) a) = zero_unlabelled mask (map (onehot_row k) b).
Proof.
  unfold zero_unlabelled. induction mask as [|x m IH]; intros [|u a] [|v b] Hab Hi; try reflexivity; try discriminate.
  cbn [map combine fst snd]. cbn [List.length] in Hab. rewrite (IH a b ltac:(lia) (fun i => Hi (S i))). f_equal. destruct x.
  - assert (Ex := Hi O eq_refl). cbn [nth] in Ex. rewrite Ex. reflexivity.
  - unfold onehot_row. rewrite !map_map. reflexivity.
Qed.
Section Run.
Variables (root : Q -> Q) (tiny : Q).
Lemma poisson_ok n ei weight y mask sp r : poisson_learning root tiny n ei weight y mask sp = Ok r ->
  exists E k, validate_graph n ei weight = Ok E /\ List.length y = Z.to_nat n /\ List.length mask = Z.to_nat n /\ (exists i, nth i mask false = true) /\
    k = Z.to_nat (n_distinct (masked mask y)) /\ (0 < k)%nat /\ (forall v, In v y -> (v < Z.of_nat k)%Z) /\ shape (Z.to_nat n) k (pr_F r) /\
    let A := poisson_matvec root tiny (pn_kind sp) (pn_eps sp) (Z.to_nat n) E in
    let b c := column (Z.to_nat n) (sources (Z.to_nat n) k (zero_unlabelled mask (map (onehot_row k) y)) mask (pn_center sp)) c in
    exists xs, (forall c, (c < k)%nat -> cg_solve A (pn_tol sp) (b c) None (pn_max_iter sp) = xs c) /\
      (forall i c, (i < Z.to_nat n)%nat -> (c < k)%nat -> entry (pr_F r) i c = nth i (fst (xs c)) 0) /\
      pr_iter r = fold_left Z.max (map (fun c => cg_iter (snd (xs c))) (seq 0 k)) 0%Z /\
      pr_residual2 r = fold_left Qmax (map (fun c => cg_residual2 (snd (xs c))) (seq 0 k)) 0.
Proof.
  intros H. unfold poisson_learning in H. inv_bind H. rename a into E0. destruct (negb (lenZ y =? n)%Z) eqn:E1; [discriminate|]. destruct (negb (lenZ mask =? n)%Z) eqn:E2; [discriminate|]. destruct (existsb _ mask) eqn:E3; [|discriminate]. cbn [negb] in H.
  cbv zeta in H. inv_bind H. apply onehot_ok in E4 as (Hk & Hlt & ->). injection H as <-. cbn [pr_F pr_iter pr_residual2].
  exists E0, (Z.to_nat (n_distinct (masked mask y))). split; [exact E|]. unfold lenZ in E1, E2. split; [lia|]. split; [lia|]. split; [apply some_labelled, E3|]. split; [reflexivity|]. split; [lia|]. split; [intros v Hv; specialize (Hlt v Hv); lia|]. split; [apply shape_tabulate|].
  cbv zeta. eexists. split; [intros c Hc; reflexivity|]. cbn beta. split; [|split].
  - intros i c Hi Hc. rewrite entry_tabulate by assumption. rewrite nth_map_in with (da := 0%nat) by (rewrite seq_length; exact Hc). rewrite seq_nth by exact Hc. reflexivity.
  - rewrite map_map. reflexivity.
  - rewrite map_map. reflexivity.
Qed.
Lemma poisson_returns n ei weight y mask sp k : shown_values y mask k ->
  ((exists r, poisson_learning root tiny n ei weight y mask sp = Ok r) <->
   (exists E, validate_graph n ei weight = Ok E) /\ List.length y = Z.to_nat n /\ List.length mask = Z.to_nat n /\ (exists i, nth i mask false = true) /\ (forall v, In v y -> (v < Z.of_nat k)%Z)).
Proof.
  intros (l & Hnd & Hlen & HI).
  assert (Hkk : List.length mask = List.length y -> k = Z.to_nat (n_distinct (masked mask y))).
  { intros Hl. destruct (distinct_values y mask Hl) as (l' & Hnd' & Hlen' & HI'). rewrite <- Hlen, <- Hlen'. apply Permutation_length, NoDup_Permutation; auto. intros v. rewrite HI, HI'. reflexivity. }
  split.
  - intros (r & H). destruct (poisson_ok _ _ _ _ _ _ _ H) as (E & k' & HV & Hy & Hm & Hs & Hk & _ & Hlt & _). rewrite <- Hkk in Hk by congruence. subst k'. split; [eauto|]. auto.
  - intros ((E & HV) & Hy & Hm & Hs & Hlt). assert (Hl : List.length mask = List.length y) by congruence. specialize (Hkk Hl). assert (Hv := validate_graph_ok _ _ _ _ HV). destruct Hv as (Hn & _). apply some_labelled in Hs. assert (Hp := distinct_pos y mask Hl Hs).
    unfold poisson_learning. rewrite HV. cbn [bind]. unfold lenZ. destruct (negb (Z.of_nat (List.length y) =? n)%Z) eqn:E1; [lia|]. destruct (negb (Z.of_nat (List.length mask) =? n)%Z) eqn:E2; [lia|]. rewrite Hs. cbn [negb]. cbv zeta.
    rewrite onehot_iff by (auto; intros v Hv; specialize (Hlt v Hv); lia). cbn [bind]. eauto.
Qed.
Lemma poisson_hidden n ei weight y y' mask sp r r' : (forall i, nth i mask false = true -> nth i y (-1)%Z = nth i y' (-1)%Z) ->
  poisson_learning root tiny n ei weight y mask sp = Ok r -> poisson_learning root tiny n ei weight y' mask sp = Ok r' -> r = r'.
Proof.
  intros Hs H H'. unfold poisson_learning in H, H'. inv_bind H. rewrite E in H'. cbn [bind] in H'. destruct (negb (lenZ y =? n)%Z) eqn:E1; [discriminate|]. destruct (negb (lenZ y' =? n)%Z) eqn:E1'; [discriminate|]. destruct (negb (lenZ mask =? n)%Z); [discriminate|]. destruct (negb (existsb _ mask)); [discriminate|].
  assert (Hlen : List.length y = List.length y') by (unfold lenZ in *; lia). cbv zeta in H, H'. rewrite <- (masked_same mask y y' Hlen Hs) in H'. inv_bind H. inv_bind H'. apply onehot_ok in E0 as (_ & _ & ->). apply onehot_ok in E2 as (_ & _ & ->). rewrite (zeroed_same _ mask y y' Hlen Hs) in H. congruence.
Qed.
(* the equations, up to the reported residual *)
Lemma poisson_equations n ei weight y mask sp r : poisson_learning root tiny n ei weight y mask sp = Ok r ->
  exists E k, validate_graph n ei weight = Ok E /\ List.length y = Z.to_nat n /\ List.length mask = Z.to_nat n /\ (exists i, nth i mask false = true) /\
    shown_values y mask k /\ (0 < k)%nat /\ (forall v, In v y -> (v < Z.of_nat k)%Z) /\ shape (Z.to_nat n) k (pr_F r) /\
    largest_of k (fun c => missed (Z.to_nat n) (poisson_op root tiny (pn_kind sp) (pn_eps sp) (Z.to_nat n) E) (fun i => source (pn_center sp) (Z.to_nat n) y mask i c) (fun i => entry (pr_F r) i c)) (pr_residual2 r) /\
    (0 <= pr_iter r <= Z.max 0 (pn_max_iter sp))%Z.
Proof.
  intros H. destruct (poisson_ok _ _ _ _ _ _ _ H) as (E & k & HV & Hy & Hm & Hs & Hk & Hkp & Hlt & HF & xs & HX & HFx & HI & HR). destruct (validate_graph_ok _ _ _ _ HV) as (Hn & HE & _).
  exists E, k. do 4 (split; [assumption|]). split; [rewrite Hk; apply distinct_values; congruence|]. do 3 (split; [assumption|]). set (nn := Z.to_nat n) in *. assert (Hnn : (0 < nn)%nat) by lia.
  set (A := poisson_matvec root tiny (pn_kind sp) (pn_eps sp) nn E) in *. set (b := fun c => column nn (sources nn k (zero_unlabelled mask (map (onehot_row k) y)) mask (pn_center sp)) c) in *.
  assert (HC : forall c, (c < k)%nat -> cg_residual2 (snd (xs c)) == missed nn (poisson_op root tiny (pn_kind sp) (pn_eps sp) nn E) (fun i => source (pn_center sp) nn y mask i c) (fun i => entry (pr_F r) i c) /\ (0 <= cg_iter (snd (xs c)) <= Z.max 0 (pn_max_iter sp))%Z).
  { intros c Hc. specialize (HX c Hc). fold A in HX. change (column nn _ c) with (b c) in HX. destruct (xs c) as [x info] eqn:Ex.
    assert (HB : List.length (b c) = nn) by apply column_length.
    destruct (cg_ok nn A (matvec_linear root tiny _ _ nn E HE Hnn) (b c) HB (pn_tol sp) None (pn_max_iter sp) x info ltac:(discriminate) HX) as (Hx & Hr & Hi & _). split; [|exact Hi]. cbn [snd]. rewrite Hr.
    unfold A. rewrite (residual_missed root tiny _ _ nn E HE Hnn (b c) x HB Hx). unfold missed. apply over_ext. intros i Hii. unfold b. rewrite column_nth by exact Hii. rewrite (sources_entry nn k y mask (pn_center sp) i c Hm Hy Hii Hc).
    assert (Heq : poisson_op root tiny (pn_kind sp) (pn_eps sp) nn E (fun j => nth j x 0) i == poisson_op root tiny (pn_kind sp) (pn_eps sp) nn E (fun j => entry (pr_F r) j c) i).
    { apply op_ext; auto. intros j Hj. rewrite (HFx j c Hj Hc), Ex. reflexivity. }
    rewrite Heq. reflexivity. }
  split.
  - rewrite HR. destruct (fold_Qmax (map (fun c => cg_residual2 (snd (xs c))) (seq 0 k)) 0) as (F0 & F1 & F2). split.
    + intros c Hc. rewrite <- (proj1 (HC c Hc)). apply F1. apply in_map_iff. exists c. split; [reflexivity|apply in_seq; lia].
    + destruct F2 as [F2|(q & Hq & F2)].
      * exists 0%nat. split; [exact Hkp|]. apply Qle_antisym; [|rewrite <- (proj1 (HC 0%nat Hkp)); apply F1, in_map_iff; exists 0%nat; split; [reflexivity|apply in_seq; lia]].
        rewrite F2. apply Qsum_nonneg. intros q Hq. apply in_map_iff in Hq as (i & <- & _). generalize (source (pn_center sp) nn y mask i 0 - poisson_op root tiny (pn_kind sp) (pn_eps sp) nn E (fun i0 => entry (pr_F r) i0 0) i). intros; nra.
      * apply in_map_iff in Hq as (c & <- & Hc). apply in_seq in Hc. exists c. split; [lia|]. rewrite F2. apply HC. lia.
  - rewrite HI. apply fold_Zmax; [|lia]. intros q Hq. apply in_map_iff in Hq as (c & <- & Hc). apply in_seq in Hc. apply HC. lia.
Qed.
(* convergence *)
Lemma poisson_converges n ei weight y mask sp r E : poisson_learning root tiny n ei weight y mask sp = Ok r -> validate_graph n ei weight = Ok E -> nonneg_weights weight -> symmetric E ->
  0 < tiny -> exact_products root tiny (Z.to_nat n) E -> pn_kind sp = Sym -> 0 < pn_eps sp -> 0 <= pn_tol sp -> (n <= pn_max_iter sp)%Z ->
  pr_residual2 r <= pn_tol sp * pn_tol sp /\ (pr_iter r <= n)%Z.
Proof.
  intros H HV Hw Hsym Ht Hroot Hkind Heps Htol Hmax. destruct (poisson_ok _ _ _ _ _ _ _ H) as (E' & k & HV' & Hy & Hm & Hs & Hk & Hkp & Hlt & HF & xs & HX & HFx & HI & HR). rewrite HV in HV'. injection HV' as <-.
  destruct (validate_graph_ok _ _ _ _ HV) as (Hn & HE & _ & _ & Hnn). specialize (Hnn Hw). set (nn := Z.to_nat n) in *. assert (Hn' : (0 < nn)%nat) by lia. rewrite Hkind in HX.
  assert (HC : forall c, (c < k)%nat -> cg_residual2 (snd (xs c)) <= pn_tol sp * pn_tol sp /\ (0 <= cg_iter (snd (xs c)) <= n)%Z).
  { intros c Hc. specialize (HX c Hc). destruct (xs c) as [x info] eqn:Ex. cbn [snd].
    assert (HB := column_length nn (sources nn k (zero_unlabelled mask (map (onehot_row k) y)) mask (pn_center sp)) c).
    destruct (cg_ok nn _ (matvec_linear root tiny Sym (pn_eps sp) nn E HE Hn') _ HB (pn_tol sp) None (pn_max_iter sp) x info ltac:(discriminate) HX) as (_ & Hr & Hi & _).
    destruct (cg_converges nn _ (matvec_linear root tiny Sym (pn_eps sp) nn E HE Hn') _ HB (pn_tol sp) (matvec_positive root tiny (pn_eps sp) nn E HE Hn' Ht Hnn Hsym Hroot Heps) Htol None (pn_max_iter sp) x info ltac:(discriminate) ltac:(lia) HX) as (_ & Hi' & Hr').
    rewrite Hr. split; [exact Hr'|lia]. }
  split.
  - rewrite HR. destruct (fold_Qmax (map (fun c => cg_residual2 (snd (xs c))) (seq 0 k)) 0) as (F0 & F1 & [F2|(q & Hq & F2)]); rewrite F2; [nra|]. apply in_map_iff in Hq as (c & <- & Hc). apply in_seq in Hc. apply HC. lia.
  - rewrite HI. apply (fold_Zmax _ 0%Z); [|lia]. intros q Hq. apply in_map_iff in Hq as (c & <- & Hc). apply in_seq in Hc. apply HC. lia.
Qed.
End Run.
(* the equations always have exactly one solution *)
Lemma op_solvable root tiny eps n E b : in_range n E -> (0 < n)%nat -> 0 < tiny -> (forall e, In e E -> 0 <= e_w e) -> symmetric E -> exact_products root tiny n E -> 0 < eps ->
  exists f, forall i, (i < n)%nat -> poisson_op root tiny Sym eps n E f i == b i.
Proof.
  intros HE Hn Ht Hw Hs Hr He. set (bv := map b (seq 0 n)). assert (HB : List.length bv = n) by (unfold bv; rewrite map_length, seq_length; reflexivity).
  destruct (cg_solve (poisson_matvec root tiny Sym eps n E) 0 bv None (Z.of_nat n)) as [x info] eqn:Ex.
  destruct (cg_ok n _ (matvec_linear root tiny Sym eps n E HE Hn) bv HB 0 None _ x info ltac:(discriminate) Ex) as (Hx & _).
  destruct (cg_converges n _ (matvec_linear root tiny Sym eps n E HE Hn) bv HB 0 (matvec_positive root tiny eps n E HE Hn Ht Hw Hs Hr He) ltac:(lra) None (Z.of_nat n) x info ltac:(discriminate) ltac:(lia) Ex) as (_ & _ & Hres).
  rewrite (residual_missed root tiny Sym eps n E HE Hn bv x HB Hx) in Hres. exists (fun i => nth i x 0). intros i Hi.
  assert (H00 : 0 * 0 <= 0) by lra.
  assert (Hz := over_squares_zero n (fun i => nth i bv 0 - poisson_op root tiny Sym eps n E (fun j => nth j x 0) i) (Qle_trans _ _ _ Hres H00) i Hi). cbn beta in Hz.
  assert (Hb : nth i bv 0 = b i) by (unfold bv; rewrite nth_map_in with (da := 0%nat) by (rewrite seq_length; exact Hi); rewrite seq_nth by exact Hi; reflexivity). rewrite Hb in Hz. lra.
Qed.
