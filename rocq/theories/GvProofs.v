(* Lemmas for the views of a graph. *)
From Coq Require Import QArith Qminmax Qabs Qpower Lqa ZifyBool ZifyNat Permutation.
From Verif Require Import Prelude ListFacts QFacts TransModel TransSpec TransProofs TransSolveProofs PoissonProofs PcaSpec PcaProofs GvModel GvSpec.
Local Open Scope Q_scope.
Local Open Scope list_scope.
Local Notation length := List.length.

(* ---- diffusion *)
Lemma w_norm_map tiny E : w_norm tiny E = map (fun e => (e_src e, e_dst e, e_w e / Qmax (leaving E (e_src e)) tiny)) E.
Proof. reflexivity. Qed.
Lemma filter_map {A B} (f : A -> B) (p : B -> bool) l : filter p (map f l) = map f (filter (fun x => p (f x)) l).
Proof. induction l as [|a l IH]; [reflexivity|]. cbn [map filter]. rewrite IH. destruct (p (f a)); reflexivity. Qed.
Lemma filter_and {A} (p q : A -> bool) l : filter (fun x => p x && q x) l = filter q (filter p l).
Proof. induction l as [|a l IH]; [reflexivity|]. cbn [filter]. rewrite IH. destruct (p a); cbn [filter andb]; [|reflexivity]. destruct (q a); reflexivity. Qed.
Lemma sum_by_target (f : edge -> Q) (h : nat -> Q) n (E : list edge) :
  (forall e, In e E -> (0 <= e_dst e < Z.of_nat n)%Z) ->
  Qsum (map (fun j => Qsum (map f (filter (fun e => (e_dst e =? Z.of_nat j)%Z) E)) * h j) (seq 0 n)) == Qsum (map (fun e => f e * h (Z.to_nat (e_dst e))) E).
Proof.
  induction E as [|e E IH]; intros HE.
  - cbn [map filter]. rewrite Qsum_nil. apply Qsum_zero. intros x _. ring.
  - cbn [map]. rewrite Qsum_cons. rewrite <- IH by (intros x Hx; apply HE; right; exact Hx).
    assert (He := HE e (or_introl eq_refl)).
    rewrite <- (sum_pick (fun j => f e * h j) (Z.to_nat (e_dst e)) (seq 0 n)) by (try apply seq_NoDup; apply in_seq; lia).
    rewrite <- Qsum_plus. apply Qsum_ext. intros j _. cbn [filter].
    destruct (Z.eqb_spec (e_dst e) (Z.of_nat j)) as [Hj|Hj]; destruct (Nat.eqb_spec j (Z.to_nat (e_dst e))) as [Hj'|Hj']; try lia.
    + cbn [map]. rewrite Qsum_cons. ring.
    + ring.
Qed.
Lemma csr_row tiny E n i c (H : nat -> nat -> Q) : inside (Z.of_nat n) E ->
  Qsum (map (fun j => csr_entry (w_norm tiny E) i j * H j c) (seq 0 n)) == neighbour_mean tiny E H i c.
Proof.
  intros HE. unfold csr_entry, w_norm, neighbour_mean.
  transitivity (Qsum (map (fun j => Qsum (map (fun e => e_w e / Qmax (out_weight E i) tiny) (filter (fun e => (e_dst e =? Z.of_nat j)%Z) (out_edges E i))) * H j c) (seq 0 n))).
  - apply Qsum_ext. intros j _. rewrite filter_map, map_map. cbn [e_src e_dst e_w fst snd].
    assert (EQ : filter (fun x : edge => (e_src x =? Z.of_nat i)%Z && (e_dst x =? Z.of_nat j)%Z) E = filter (fun e => (e_dst e =? Z.of_nat j)%Z) (out_edges E i)) by (unfold out_edges; rewrite <- filter_and; reflexivity).
    unfold e_src, e_dst, e_w in *. cbn [fst snd] in *. rewrite EQ.
    apply Qmult_comp; [|reflexivity]. apply Qsum_ext. intros e He. cbn beta.
    apply filter_In in He as [He _]. unfold out_edges in He. apply filter_In in He as [_ He]. apply Z.eqb_eq in He. unfold leaving, out_weight, out_edges, e_src in *. rewrite He. reflexivity.
  - rewrite (sum_by_target (fun e => e_w e / Qmax (out_weight E i) tiny) (fun j => H j c)).
    + unfold Qdiv. rewrite <- Qsum_scale_r. apply Qsum_ext. intros e _. ring.
    + intros e He. apply filter_In in He as [He _]. apply HE. exact He.
Qed.
Lemma diffuse_shape A n d a X H : shape n d (diffuse A n d a X H).
Proof. apply shape_tabulate. Qed.
Lemma diffuse_spread tiny E n d a X H : inside (Z.of_nat n) E ->
  agree n d (entry (diffuse (csr_entry (w_norm tiny E)) n d a X H)) (spread tiny E a (entry X) (entry H)).
Proof. intros HE i c Hi Hc. unfold diffuse. rewrite entry_tabulate by assumption. unfold spread. rewrite <- (csr_row tiny E n i c (entry H) HE). ring. Qed.
Lemma iter_shape A n d a X t : shape n d X -> shape n d (Nat.iter t (diffuse A n d a X) X).
Proof. intros HX. destruct t as [|t]; [exact HX|]. rewrite iter_S. apply diffuse_shape. Qed.
(* the same matrix from distinct edges *)
Lemma fold_last_none i j (E : list edge) : forall a, (forall e, In e E -> fst e <> (Z.of_nat i, Z.of_nat j)) ->
  fold_left (fun a e => if (e_src e =? Z.of_nat i)%Z && (e_dst e =? Z.of_nat j)%Z then e_w e else a) E a = a.
Proof.
  induction E as [|e E IH]; intros a HE; [reflexivity|]. cbn [fold_left]. rewrite IH by (intros x Hx; apply HE; right; exact Hx).
  destruct ((e_src e =? Z.of_nat i)%Z && (e_dst e =? Z.of_nat j)%Z) eqn:C; [|reflexivity].
  exfalso. apply (HE e (or_introl eq_refl)). unfold e_src, e_dst in C. destruct e as [[u v] w]; cbn [fst snd] in *. apply andb_true_iff in C as [C1 C2]. f_equal; lia.
Qed.
Lemma dense_csr_from i j (E : list edge) : NoDup (map fst E) -> forall a,
    fold_left (fun a e => if (e_src e =? Z.of_nat i)%Z && (e_dst e =? Z.of_nat j)%Z then e_w e else a) E a ==
    match filter (fun e : edge => (e_src e =? Z.of_nat i)%Z && (e_dst e =? Z.of_nat j)%Z) E with [] => a | l => Qsum (map e_w l) end.
Proof.
  induction E as [|e E IH]; intros ND a; [reflexivity|]. inversion ND as [|? ? Ha ND']; subst. cbn [fold_left filter].
  destruct ((e_src e =? Z.of_nat i)%Z && (e_dst e =? Z.of_nat j)%Z) eqn:C.
  - assert (No : forall x, In x E -> fst x <> (Z.of_nat i, Z.of_nat j)).
    { intros x Hx Hf. apply Ha. apply in_map_iff. exists x. split; [|exact Hx]. rewrite Hf. unfold e_src, e_dst in C. destruct e as [[u v] w]; cbn [fst snd] in *. apply andb_true_iff in C as [C1 C2]. f_equal; lia. }
    rewrite (fold_last_none i j E (e_w e) No).
    assert (Fe : filter (fun e : edge => (e_src e =? Z.of_nat i)%Z && (e_dst e =? Z.of_nat j)%Z) E = []).
    { destruct (filter _ E) as [|x l] eqn:FE; [reflexivity|exfalso]. assert (Hx : In x (x :: l)) by (left; reflexivity). rewrite <- FE in Hx. apply filter_In in Hx as [Hx Cx].
      apply (No x Hx). unfold e_src, e_dst in Cx. destruct x as [[u v] w]; cbn [fst snd] in *. apply andb_true_iff in Cx as [C1 C2]. f_equal; lia. }
    rewrite Fe. cbn [map]. rewrite Qsum_cons, Qsum_nil. ring.
  - apply IH. exact ND'.
Qed.
Lemma dense_csr i j (E : list edge) : simple E -> dense_entry E i j == csr_entry E i j.
Proof.
  intros HE. unfold dense_entry, csr_entry. rewrite (dense_csr_from i j E HE 0).
  destruct (filter _ E); reflexivity.
Qed.
Lemma w_norm_simple tiny E : simple E -> simple (w_norm tiny E).
Proof.
  unfold simple, w_norm. intros H. rewrite map_map. erewrite map_ext; [exact H|]. intros [[u v] w]. reflexivity.
Qed.
Lemma diffuse_ext A B n d a X H H' : (forall i j, A i j == B i j) -> agree n d (entry H) (entry H') -> agree n d (entry (diffuse A n d a X H)) (entry (diffuse B n d a X H')).
Proof.
  intros HA HH i c Hi Hc. unfold diffuse. rewrite !entry_tabulate by assumption. apply Qplus_comp; [|reflexivity]. apply Qmult_comp; [|reflexivity].
  apply Qsum_ext. intros j Hj. apply in_seq in Hj. apply Qmult_comp; [apply HA|apply HH; lia].
Qed.
Lemma iter_ext A B n d a X t : (forall i j, A i j == B i j) -> agree n d (entry (Nat.iter t (diffuse A n d a X) X)) (entry (Nat.iter t (diffuse B n d a X) X)).
Proof. intros HA. induction t as [|t IH]; [intros i c _ _; reflexivity|]. rewrite !iter_S. apply diffuse_ext; assumption. Qed.

(* weighted means *)
Lemma out_In_of (E : list edge) e i : In e (out_edges E i) -> In e E /\ e_src e = Z.of_nat i.
Proof. unfold out_edges. intros H. apply filter_In in H as [H H']. split; [exact H|lia]. Qed.
Section Mean.
Variables (tiny : Q) (E : list edge) (n : nat).
Hypothesis Htiny : 0 < tiny.
Hypothesis Hw : forall e, In e E -> 0 <= e_w e.
Hypothesis Hin : inside (Z.of_nat n) E.
Lemma Wpos i : 0 < Qmax (out_weight E i) tiny.
Proof using Htiny. apply Qlt_le_trans with tiny; [exact Htiny|apply Q.le_max_r]. Qed.
Lemma out_nonneg i : 0 <= out_weight E i.
Proof using Hw. unfold out_weight. apply Qsum_nonneg. intros x Hx. apply in_map_iff in Hx as (e & <- & He). apply Hw. apply (out_In_of E e i He). Qed.
Lemma mean_bounds H i c lo hi : lo <= 0 <= hi -> (forall j, (j < n)%nat -> lo <= H j c <= hi) -> lo <= neighbour_mean tiny E H i c <= hi.
Proof using Htiny Hw Hin.
  intros Hlh HB. assert (P := Wpos i). unfold neighbour_mean.
  assert (B : lo * out_weight E i <= Qsum (map (fun e => e_w e * H (Z.to_nat (e_dst e)) c) (out_edges E i)) <= hi * out_weight E i).
  { unfold out_weight. rewrite <- !Qsum_scale. split; apply Qsum_le; intros e He; destruct (out_In_of E e i He) as [He' _];
      assert (W := Hw e He'); assert (D := HB (Z.to_nat (e_dst e)) ltac:(specialize (Hin e He'); lia)); nra. }
  assert (M := Q.le_max_l (out_weight E i) tiny). split.
  - apply Qle_shift_div_l; [exact P|]. nra.
  - apply Qle_shift_div_r; [exact P|]. nra.
Qed.
Lemma mean_bounds_full H i c lo hi : tiny <= out_weight E i -> (forall j, (j < n)%nat -> lo <= H j c <= hi) -> lo <= neighbour_mean tiny E H i c <= hi.
Proof using Htiny Hw Hin.
  intros Hfull HB. assert (P := Wpos i). unfold neighbour_mean.
  assert (B : lo * out_weight E i <= Qsum (map (fun e => e_w e * H (Z.to_nat (e_dst e)) c) (out_edges E i)) <= hi * out_weight E i).
  { unfold out_weight. rewrite <- !Qsum_scale. split; apply Qsum_le; intros e He; destruct (out_In_of E e i He) as [He' _];
      assert (W := Hw e He'); assert (D := HB (Z.to_nat (e_dst e)) ltac:(specialize (Hin e He'); lia)); nra. }
  assert (M : Qmax (out_weight E i) tiny == out_weight E i) by (apply Q.max_l; exact Hfull). rewrite M in P |- *. split.
  - apply Qle_shift_div_l; [exact P|]. lra.
  - apply Qle_shift_div_r; [exact P|]. lra.
Qed.
Lemma mean_ext H H' i c : (forall e, In e (out_edges E i) -> H (Z.to_nat (e_dst e)) c == H' (Z.to_nat (e_dst e)) c) -> neighbour_mean tiny E H i c == neighbour_mean tiny E H' i c.
Proof using Type. intros HH. unfold neighbour_mean. apply Qmult_comp; [|reflexivity]. apply Qsum_ext. intros e He. rewrite (HH e He). reflexivity. Qed.
Lemma mean_minus H H' i c : neighbour_mean tiny E H i c - neighbour_mean tiny E H' i c == neighbour_mean tiny E (fun j c => H j c - H' j c) i c.
Proof using Type.
  unfold neighbour_mean, Qdiv. transitivity ((Qsum (map (fun e => e_w e * H (Z.to_nat (e_dst e)) c) (out_edges E i)) - Qsum (map (fun e => e_w e * H' (Z.to_nat (e_dst e)) c) (out_edges E i))) * / Qmax (out_weight E i) tiny); [ring|].
  apply Qmult_comp; [|reflexivity]. rewrite <- Qsum_minus. apply Qsum_ext. intros e _. ring.
Qed.
Lemma mean_sink H i c : out_edges E i = [] -> neighbour_mean tiny E H i c == 0.
Proof using Type. intros HE. unfold neighbour_mean. rewrite HE. cbn [map]. rewrite Qsum_nil. unfold Qdiv. ring. Qed.
End Mean.

Lemma Qpow_S (x : Q) (t : nat) : x ^ (Z.of_nat t + 1) == x * x ^ Z.of_nat t.
Proof. rewrite Qpower_plus' by lia. change (x ^ 1) with x. ring. Qed.
Section Diffusion.
Variables (tiny : Q) (E : list edge) (n d : nat) (a : Q) (X : mat).
Hypothesis Htiny : 0 < tiny.
Hypothesis Hw : forall e, In e E -> 0 <= e_w e.
Hypothesis Hin : inside (Z.of_nat n) E.
Hypothesis Ha : 0 <= a <= 1.
Let R (t : nat) : mat := Nat.iter t (diffuse (csr_entry (w_norm tiny E)) n d a X) X.
Lemma R_step t : agree n d (entry (R (S t))) (spread tiny E a (entry X) (entry (R t))).
Proof using Hin. unfold R at 1. rewrite iter_S. apply diffuse_spread. exact Hin. Qed.
Lemma R_bounds lo hi c t : (c < d)%nat -> (lo <= 0 <= hi \/ forall i, (i < n)%nat -> tiny <= out_weight E i) ->
  (forall i, (i < n)%nat -> lo <= entry X i c <= hi) -> forall i, (i < n)%nat -> lo <= entry (R t) i c <= hi.
Proof using Htiny Hw Hin Ha.
  intros Hc Hor HX. induction t as [|t IH]; [exact HX|]. intros i Hi. rewrite (R_step t i c Hi Hc). unfold spread.
  assert (M : lo <= neighbour_mean tiny E (entry (R t)) i c <= hi).
  { destruct Hor as [Hor|Hor]; [exact (mean_bounds tiny E n Htiny Hw Hin (entry (R t)) i c lo hi Hor IH)|exact (mean_bounds_full tiny E n Htiny Hw Hin (entry (R t)) i c lo hi (Hor i Hi) IH)]. }
  assert (B := HX i Hi). split; nra.
Qed.
Lemma R_contract (F : nat -> nat -> Q) c B t : (c < d)%nat -> agree n d F (spread tiny E a (entry X) F) ->
  (forall i, (i < n)%nat -> Qabs (entry X i c - F i c) <= B) -> forall i, (i < n)%nat -> Qabs (entry (R t) i c - F i c) <= (1 - a) ^ Z.of_nat t * B.
Proof using Htiny Hw Hin Ha.
  intros Hc HF HX. induction t as [|t IH]; [intros i Hi; cbn; rewrite Qmult_1_l; exact (HX i Hi)|].
  intros i Hi. rewrite Nat2Z.inj_succ. unfold Z.succ. rewrite Qpow_S.
  set (P := (1 - a) ^ Z.of_nat t) in *. rewrite (R_step t i c Hi Hc), (HF i c Hi Hc). unfold spread.
  assert (EQ : (1 - a) * neighbour_mean tiny E (entry (R t)) i c + a * entry X i c - ((1 - a) * neighbour_mean tiny E F i c + a * entry X i c) ==
              (1 - a) * neighbour_mean tiny E (fun j c => entry (R t) j c - F j c) i c) by (rewrite <- (mean_minus tiny E (entry (R t)) F i c); ring).
  rewrite EQ, Qabs_Qmult, (Qabs_pos (1 - a)) by lra. rewrite <- Qmult_assoc.
  assert (PB : 0 <= P * B) by (apply Qle_trans with (Qabs (entry (R t) i c - F i c)); [apply Qabs_nonneg|apply IH; exact Hi]).
  assert (M : - (P * B) <= neighbour_mean tiny E (fun j c => entry (R t) j c - F j c) i c <= P * B).
  { apply (mean_bounds tiny E n Htiny Hw Hin (fun j c => entry (R t) j c - F j c) i c); [lra|]. intros j Hj. apply Qabs_Qle_condition. apply IH. exact Hj. }
  apply Qabs_Qle_condition in M. set (m := Qabs _) in *. nra.
Qed.
Lemma R_sink i c t : (i < n)%nat -> (c < d)%nat -> out_edges E i = [] -> entry (R (S t)) i c == a * entry X i c.
Proof using Hin. intros Hi Hc HE. rewrite (R_step t i c Hi Hc). unfold spread. rewrite (mean_sink tiny E (entry (R t)) i c HE). ring. Qed.
Lemma R_full i c t : (i < n)%nat -> (c < d)%nat -> a == 1 -> entry (R t) i c == entry X i c.
Proof using Hin. intros Hi Hc HA. destruct t as [|t]; [reflexivity|]. rewrite (R_step t i c Hi Hc). unfold spread. rewrite HA. ring. Qed.
End Diffusion.
Lemma R_local tiny E n d a X X' c : inside (Z.of_nat n) E -> (c < d)%nat -> forall t i, (i < n)%nat ->
  (forall j, within_hops E t i j -> entry X j c == entry X' j c) ->
  entry (Nat.iter t (diffuse (csr_entry (w_norm tiny E)) n d a X) X) i c == entry (Nat.iter t (diffuse (csr_entry (w_norm tiny E)) n d a X') X') i c.
Proof.
  intros Hin Hc. induction t as [|t IH]; intros i Hi HX; [apply HX; constructor|].
  rewrite (R_step tiny E n d a X Hin t i c Hi Hc), (R_step tiny E n d a X' Hin t i c Hi Hc). unfold spread.
  apply Qplus_comp; [|rewrite (HX i) by constructor; reflexivity]. apply Qmult_comp; [reflexivity|].
  apply mean_ext. intros e He. apply IH.
  - destruct (out_In_of E e i He) as [He' _]. specialize (Hin e He'). lia.
  - intros j Hj. apply HX. apply hop_edge with e; assumption.
Qed.

(* ---- walks *)
Lemma nbrs_In n ei u v : In v (nbrs n ei u) <-> arrow n ei u v.
Proof.
  unfold nbrs, arrow. rewrite in_map_iff. split.
  - intros (e & <- & He). apply filter_In in He as [He C]. destruct e as [x y]; cbn [fst snd] in *.
    assert (x = Z.of_nat u /\ (0 <= x < n)%Z /\ (0 <= y < n)%Z) as (-> & ? & ?) by lia. rewrite Z2Nat.id by lia. repeat split; [exact He|lia|lia].
  - intros (He & Hu & Hv). exists (Z.of_nat u, Z.of_nat v). split; [cbn [snd]; lia|]. apply filter_In. split; [exact He|]. cbn [fst snd]. lia.
Qed.
Lemma nbrs_nil n ei u : nbrs n ei u = [] <-> forall x, ~ arrow n ei u x.
Proof.
  split.
  - intros H x Hx. apply nbrs_In in Hx. rewrite H in Hx. destruct Hx.
  - intros H. destruct (nbrs n ei u) as [|x l] eqn:F; [reflexivity|]. exfalso. apply (H x). apply nbrs_In. rewrite F. left. reflexivity.
Qed.
Lemma bias_spec sp n ei prev v : 0 < sp_p sp -> 0 < sp_q sp -> return_bias (sp_p sp) (sp_q sp) n ei prev v (bias sp (nbrs n ei) prev v).
Proof.
  intros Hp Hq. unfold return_bias, bias. destruct (Nat.eqb_spec v prev) as [->|Hne]; [left; split; [reflexivity|unfold Qdiv; ring]|right].
  destruct (existsb (Nat.eqb v) (nbrs n ei prev)) eqn:C.
  - left. split; [exact Hne|]. split; [|reflexivity]. apply existsb_exists in C as (x & Hx & Hv). apply Nat.eqb_eq in Hv. subst x. apply nbrs_In. exact Hx.
  - right. split; [exact Hne|]. split; [|unfold Qdiv; ring]. intros Hx. apply nbrs_In in Hx. assert (C' : existsb (Nat.eqb v) (nbrs n ei prev) = true) by (apply existsb_exists; exists v; split; [exact Hx|apply Nat.eqb_refl]). congruence.
Qed.
Lemma bias_pos sp n ei prev v : 0 < sp_p sp -> 0 < sp_q sp -> 0 < bias sp (nbrs n ei) prev v.
Proof.
  intros Hp Hq. destruct (bias_spec sp n ei prev v Hp Hq) as [(_ & ->)|[(_ & _ & ->)|(_ & _ & ->)]]; [apply Qinv_lt_0_compat; exact Hp|lra|apply Qinv_lt_0_compat; exact Hq].
Qed.
Lemma Qsum_pos {A} (f : A -> Q) l : l <> [] -> (forall x, In x l -> 0 < f x) -> 0 < Qsum (map f l).
Proof.
  destruct l as [|x l]; [intros H; contradiction|]. intros _ H. cbn [map]. rewrite Qsum_cons.
  assert (0 < f x) by (apply H; left; reflexivity). assert (0 <= Qsum (map f l)); [|lra]. apply Qsum_nonneg. intros y Hy. apply in_map_iff in Hy as (z & <- & Hz). apply Qlt_le_weak, H. right. exact Hz.
Qed.
Lemma probs_ok (f : nat -> Q) l : l <> [] -> (forall x, In x l -> 0 < f x) ->
  length (map (fun x => x / Qsum (map f l)) (map f l)) = length l /\
  (forall x, In x (map (fun x => x / Qsum (map f l)) (map f l)) -> 0 <= x) /\ Qsum (map (fun x => x / Qsum (map f l)) (map f l)) == 1.
Proof.
  intros Hl Hf. assert (P := Qsum_pos f l Hl Hf). split; [rewrite !map_length; reflexivity|]. split.
  - intros x Hx. apply in_map_iff in Hx as (y & <- & Hy). apply in_map_iff in Hy as (z & <- & Hz). apply Qle_shift_div_l; [exact P|]. specialize (Hf z Hz). lra.
  - unfold Qdiv. rewrite (Qsum_scale_r (/ Qsum (map f l)) (fun x => x) (map f l)). rewrite map_id. field. lra.
Qed.
Section WalkFacts.
Variables (rng : Type) (fresh : Z -> rng) (choice : rng -> list nat -> nat * rng) (choice_p : rng -> list nat -> list Q -> nat * rng) (mix : Z -> Z -> Z).
Variables (sp : struct_params) (n : Z) (ei : list (Z * Z)).
Hypothesis Hc : choice_ok choice.
Hypothesis Hcp : choice_p_ok choice_p.
Hypothesis Hp : 0 < sp_p sp.
Hypothesis Hq : 0 < sp_q sp.
Lemma walk_on_length todo : forall g prev cur, length (walk_on rng choice choice_p sp (nbrs n ei) todo g prev cur) = todo.
Proof using Type.
  induction todo as [|todo IH]; intros g prev cur; [reflexivity|]. cbn [walk_on]. destruct (nbrs n ei cur) as [|x l]; [cbn [List.length]; f_equal; apply IH|].
  match goal with |- length (let (_, _) := ?e in _) = _ => destruct e as [nxt g'] end. cbn [List.length]. f_equal. apply IH.
Qed.
Lemma walk_on_moves todo : forall g prev cur, moves (move n ei) (cur :: walk_on rng choice choice_p sp (nbrs n ei) todo g prev cur).
Proof using Hc Hcp Hp Hq.
  induction todo as [|todo IH]; intros g prev cur; [exact I|]. cbn [walk_on].
  destruct (nbrs n ei cur) as [|x l] eqn:F.
  - split; [right; split; [reflexivity|apply nbrs_nil; exact F]|]. apply IH.
  - rewrite <- F. assert (NE : nbrs n ei cur <> []) by (rewrite F; discriminate). clear F x l.
    match goal with |- moves _ (_ :: let (_, _) := ?e in _) => assert (HN : In (fst e) (nbrs n ei cur)); [|destruct e as [nxt g'] eqn:EE] end.
    + destruct (sp_method sp); [apply Hc; exact NE|]. destruct prev as [prev|]; [|apply Hc; exact NE].
      cbn zeta. destruct (Qle_bool _ 0); [apply Hc; exact NE|].
      destruct (probs_ok (bias sp (nbrs n ei) prev) (nbrs n ei cur) NE ltac:(intros; apply bias_pos; assumption)) as (P1 & P2 & P3).
      destruct (Hcp g (nbrs n ei cur) _ P1 P2 P3) as (i & Hi & -> & _). apply nth_In. exact Hi.
    + cbn [fst] in HN. split; [left; apply nbrs_In; exact HN|]. apply IH.
Qed.
Lemma one_walk_moves seed start w : moves (move n ei) (one_walk rng fresh choice choice_p mix sp (nbrs n ei) seed start w).
Proof using Hc Hcp Hp Hq. unfold one_walk. apply walk_on_moves. Qed.
Lemma one_walk_length seed start w : (0 < sp_walk_length sp)%Z -> lenZ (one_walk rng fresh choice choice_p mix sp (nbrs n ei) seed start w) = sp_walk_length sp.
Proof using Type. intros H. unfold one_walk, lenZ. cbn [List.length]. rewrite walk_on_length. lia. Qed.
End WalkFacts.
Lemma moves_leads step : forall l s u, leads step s u -> moves step (u :: l) -> forall x, In x (u :: l) -> leads step s x.
Proof.
  induction l as [|v l IH]; intros s u Hu Hm x Hx; [destruct Hx as [<-|[]]; exact Hu|]. destruct Hm as [H1 H2]. destruct Hx as [<-|Hx]; [exact Hu|].
  apply (IH s v); [apply leads_on with u; assumption|exact H2|exact Hx].
Qed.
Lemma leads_inside n ei s u : (Z.of_nat s < n)%Z -> leads (move n ei) s u -> (Z.of_nat u < n)%Z.
Proof. intros Hs H. induction H as [|u v Hl IH Hm]; [exact Hs|]. destruct Hm as [(_ & _ & Hv)|[-> _]]; [exact Hv|exact IH]. Qed.

(* ---- co-occurrences *)
Definition cnt {A} (p : A -> bool) (l : list A) : Z := lenZ (filter p l).
Lemma cnt_app {A} (p : A -> bool) a b : cnt p (a ++ b) = (cnt p a + cnt p b)%Z.
Proof. unfold cnt, lenZ. rewrite filter_app, app_length. lia. Qed.
Lemma cnt_cons {A} (p : A -> bool) a b : cnt p (a :: b) = ((if p a then 1 else 0) + cnt p b)%Z.
Proof. unfold cnt, lenZ. cbn [filter]. destruct (p a); cbn [List.length]; lia. Qed.
Lemma cnt_nonneg {A} (p : A -> bool) l : (0 <= cnt p l)%Z.
Proof. unfold cnt, lenZ. lia. Qed.
Lemma cnt_perm {A} (p : A -> bool) a b : Permutation a b -> cnt p a = cnt p b.
Proof. intros H. induction H as [|x a b H IH|x y a|a b c H IH H' IH']; [reflexivity|rewrite !cnt_cons; lia|rewrite !cnt_cons; lia|lia]. Qed.
Lemma cnt_ext {A} (p q : A -> bool) l : (forall x, In x l -> p x = q x) -> cnt p l = cnt q l.
Proof. intros H. unfold cnt. f_equal. apply filter_ext_in. exact H. Qed.
Lemma cnt_map {A B} (f : A -> B) p l : cnt p (map f l) = cnt (fun x => p (f x)) l.
Proof. unfold cnt, lenZ. rewrite filter_map, map_length. reflexivity. Qed.
Lemma cnt_filter {A} (p q : A -> bool) l : cnt p (filter q l) = cnt (fun x => q x && p x) l.
Proof. unfold cnt. rewrite filter_and. reflexivity. Qed.
Lemma NoDup_map_inj {A B} (f : A -> B) l : (forall x y, In x l -> In y l -> f x = f y -> x = y) -> NoDup l -> NoDup (map f l).
Proof.
  intros Hf HN. induction HN as [|a l Ha HN IH]; [constructor|]. cbn [map]. constructor.
  - intros H. apply in_map_iff in H as (x & HE & Hx). apply Ha. assert (x = a) by (apply Hf; [right; exact Hx|left; reflexivity|exact HE]). subst x. exact Hx.
  - apply IH. intros x y Hx Hy. apply Hf; right; assumption.
Qed.
Definition pairis (u v : nat) (k : nat * nat) : bool := Nat.eqb (fst k) u && Nat.eqb (snd k) v.
Definition around (w : Z) (L i : nat) : list nat :=
  map Z.to_nat (map (fun t => Z.max 0 (Z.of_nat i - w) + t)%Z (arange (Z.min (Z.of_nat L) (Z.of_nat i + w + 1) - Z.max 0 (Z.of_nat i - w)))).
Lemma around_perm w L i : (i < L)%nat -> Permutation (filter (fun j => negb (Nat.eqb j i)) (around w L i)) (filter (near w i) (seq 0 L)).
Proof.
  intros Hi. unfold around. rewrite map_map. set (lo := Z.max 0 (Z.of_nat i - w)). set (len := (Z.min (Z.of_nat L) (Z.of_nat i + w + 1) - lo)%Z).
  apply NoDup_Permutation.
  - apply NoDup_filter. apply NoDup_map_inj; [|apply arange_NoDup]. intros x y Hx Hy HE. apply arange_In in Hx, Hy. lia.
  - apply NoDup_filter, seq_NoDup.
  - intros j. rewrite !filter_In, in_map_iff, in_seq. unfold near. split.
    + intros [(t & <- & Ht) C]. apply arange_In in Ht. split; [lia|]. rewrite andb_true_iff. split; [rewrite Nat.eqb_sym; exact C|]. lia.
    + intros [Hj C]. apply andb_true_iff in C as [C1 C2]. split; [|rewrite Nat.eqb_sym; exact C1]. exists (Z.of_nat j - lo)%Z. split; [lia|]. apply arange_In. lia.
Qed.
Lemma cnt_flat_map {A B} (f : A -> list B) p l : cnt p (flat_map f l) = sumZ (map (fun x => cnt p (f x)) l).
Proof. induction l as [|a l IH]; [reflexivity|]. cbn [flat_map map]. rewrite cnt_app, IH. reflexivity. Qed.
Lemma sumZ_map_ext {A} (f g : A -> Z) l : (forall x, In x l -> f x = g x) -> sumZ (map f l) = sumZ (map g l).
Proof. intros H. f_equal. apply map_ext_in. exact H. Qed.
Lemma list_prod_flat {A B} (a : list A) (b : list B) : list_prod a b = flat_map (fun x => map (fun y => (x, y)) b) a.
Proof. induction a as [|x a IH]; [reflexivity|]. cbn [list_prod flat_map]. rewrite IH. reflexivity. Qed.
Lemma shows_pairs w u v l : cnt (pairis u v) (window_pairs w l) = shows w u v l.
Proof.
  unfold window_pairs, shows. cbn zeta. rewrite cnt_flat_map. fold (cnt (fun ij : nat * nat => near w (fst ij) (snd ij) && Nat.eqb (nth (fst ij) l O) u && Nat.eqb (nth (snd ij) l O) v) (list_prod (seq 0 (length l)) (seq 0 (length l)))).
  rewrite list_prod_flat, cnt_flat_map. apply sumZ_map_ext. intros i Hi. apply in_seq in Hi.
  rewrite !cnt_map. cbn [fst snd]. unfold lenZ. fold (around w (length l) i).
  rewrite (cnt_perm _ _ _ (around_perm w (length l) i ltac:(lia))), cnt_filter. apply cnt_ext. intros j _. unfold pairis. cbn [fst snd]. rewrite andb_assoc. reflexivity.
Qed.
Lemma together_pairs w walks u v : cnt (pairis u v) (flat_map (window_pairs w) walks) = together w walks u v.
Proof. rewrite cnt_flat_map. unfold together. apply sumZ_map_ext. intros l _. apply shows_pairs. Qed.
Lemma window_pairs_In w l k : In k (window_pairs w l) -> In (fst k) l /\ In (snd k) l.
Proof.
  unfold window_pairs. cbn zeta. intros H. apply in_flat_map in H as (i & Hi & H). apply in_map_iff in H as (j & <- & Hj). apply in_seq in Hi. cbn [fst snd]. unfold lenZ in Hj. fold (around w (length l) i) in Hj.
  apply (Permutation_in _ (around_perm w (length l) i ltac:(lia))) in Hj. apply filter_In in Hj as [Hj _]. apply in_seq in Hj. split; apply nth_In; lia.
Qed.
(* the dictionary of counts *)
Definition asked (c : Z) : option Z := if (c =? 0)%Z then None else Some c.
Lemma lookup_bump u v k d : lookup_pair u v (bump k d) = if pairis u v k then Some (match lookup_pair u v d with None => 1%Z | Some c => (c + 1)%Z end) else lookup_pair u v d.
Proof.
  unfold lookup_pair, pairis. induction d as [|[k' c] d IH]; cbn [bump find].
  - cbn [fst snd find option_map]. destruct (Nat.eqb (fst k) u && Nat.eqb (snd k) v); reflexivity.
  - destruct (Nat.eqb (fst k) (fst k') && Nat.eqb (snd k) (snd k')) eqn:C.
    + apply andb_true_iff in C as [C1 C2]. apply Nat.eqb_eq in C1, C2. cbn [find fst snd]. rewrite C1, C2. destruct (Nat.eqb (fst k') u && Nat.eqb (snd k') v); reflexivity.
    + cbn [find fst snd]. destruct (Nat.eqb (fst k') u && Nat.eqb (snd k') v) eqn:C'.
      * destruct (Nat.eqb (fst k) u && Nat.eqb (snd k) v) eqn:C''; [|reflexivity]. exfalso. lia.
      * exact IH.
Qed.
Lemma fold_counts n : forall pairs s, (forall k, In k pairs -> (fst k < n)%nat /\ (snd k < n)%nat) -> length (co_row s) = n -> length (co_col s) = n ->
  let s' := fold_left (count_pair n) pairs s in
  (forall u v c, lookup_pair u v (co_counts s) = asked c -> (0 <= c)%Z -> lookup_pair u v (co_counts s') = asked (c + cnt (pairis u v) pairs)) /\
  (forall u, nth u (co_row s') 0%Z = (nth u (co_row s) 0 + cnt (fun k => Nat.eqb (fst k) u) pairs)%Z) /\
  (forall u, nth u (co_col s') 0%Z = (nth u (co_col s) 0 + cnt (fun k => Nat.eqb (snd k) u) pairs)%Z) /\
  co_total s' = (co_total s + lenZ pairs)%Z /\ length (co_row s') = n /\ length (co_col s') = n.
Proof.
  induction pairs as [|k pairs IH]; intros s Hk Hr Hc; cbn zeta.
  - cbn [fold_left]. unfold cnt, lenZ. cbn [filter List.length]. change (Z.of_nat 0) with 0%Z.
    split; [intros u v c H _; rewrite Z.add_0_r; exact H|]. split; [intros; lia|]. split; [intros; lia|]. split; [lia|]. split; assumption.
  - cbn [fold_left]. destruct (Hk k (or_introl eq_refl)) as [Hk1 Hk2].
    set (s1 := count_pair n s k). assert (Hs1 : s1 = {| co_counts := bump k (co_counts s); co_row := update (co_row s) (fst k) (fun x => (x + 1)%Z);
       co_col := update (co_col s) (snd k) (fun x => (x + 1)%Z); co_total := (co_total s + 1)%Z |}).
    { unfold s1, count_pair. replace (Nat.ltb (fst k) n && Nat.ltb (snd k) n) with true by (symmetry; apply andb_true_iff; split; apply Nat.ltb_lt; assumption). reflexivity. }
    destruct (IH s1) as (A1 & A2 & A3 & A4 & A5 & A6).
    + intros x Hx. apply Hk. right. exact Hx.
    + rewrite Hs1. cbn [co_row]. rewrite update_length. exact Hr.
    + rewrite Hs1. cbn [co_col]. rewrite update_length. exact Hc.
    + split.
      { intros u v c HL Hc0. rewrite cnt_cons. rewrite (A1 u v (c + (if pairis u v k then 1 else 0))%Z).
        - f_equal. lia.
        - rewrite Hs1. cbn [co_counts]. rewrite lookup_bump, HL. unfold asked. destruct (pairis u v k).
          + destruct (Z.eqb_spec c 0) as [->|]; [reflexivity|]. destruct (Z.eqb_spec (c + 1) 0); [lia|reflexivity].
          + rewrite Z.add_0_r. reflexivity.
        - destruct (pairis u v k); lia. }
      split; [intros u; rewrite A2, cnt_cons, Hs1; cbn [co_row]; rewrite update_nth by lia; rewrite (Nat.eqb_sym u); destruct (Nat.eqb (fst k) u); lia|].
      split; [intros u; rewrite A3, cnt_cons, Hs1; cbn [co_col]; rewrite update_nth by lia; rewrite (Nat.eqb_sym u); destruct (Nat.eqb (snd k) u); lia|].
      split; [rewrite A4, Hs1; unfold lenZ; cbn [co_total List.length]; lia|]. split; assumption.
Qed.
Lemma sumZ_plus {A} (f g : A -> Z) l : sumZ (map (fun x => (f x + g x)%Z) l) = (sumZ (map f l) + sumZ (map g l))%Z.
Proof. induction l as [|a l IH]; [reflexivity|]. cbn [map]. change (sumZ (?x :: ?y)) with (x + sumZ y)%Z in *. unfold sumZ in *. cbn [fold_right] in *. lia. Qed.
Lemma sumZ_zero {A} (f : A -> Z) l : (forall x, In x l -> f x = 0%Z) -> sumZ (map f l) = 0%Z.
Proof. induction l as [|a l IH]; intros H; [reflexivity|]. unfold sumZ in *. cbn [map fold_right]. rewrite (H a) by (left; reflexivity). rewrite IH by (intros x Hx; apply H; right; exact Hx). reflexivity. Qed.
Lemma sumZ_swap {A B} (f : A -> B -> Z) la lb : sumZ (map (fun a => sumZ (map (f a) lb)) la) = sumZ (map (fun b => sumZ (map (fun a => f a b) la)) lb).
Proof.
  induction la as [|a la IH]; [symmetry; apply sumZ_zero; reflexivity|]. cbn [map].
  transitivity (sumZ (map (f a) lb) + sumZ (map (fun b => sumZ (map (fun a => f a b) la)) lb))%Z; [rewrite <- IH; reflexivity|]. rewrite <- sumZ_plus. reflexivity.
Qed.
Lemma sumZ_pick v n (z : Z) : (v < n)%nat -> sumZ (map (fun j => if Nat.eqb v j then z else 0%Z) (seq 0 n)) = z.
Proof.
  intros Hv. assert (G : forall l, NoDup l -> In v l -> sumZ (map (fun j => if Nat.eqb v j then z else 0%Z) l) = z).
  { induction l as [|a l IH]; intros HN Hi; [destruct Hi|]. inversion HN as [|? ? Ha HN']; subst. unfold sumZ in *. cbn [map fold_right]. destruct Hi as [->|Hi].
    - rewrite Nat.eqb_refl. fold (sumZ (map (fun j => if Nat.eqb v j then z else 0%Z) l)). rewrite sumZ_zero; [lia|]. intros x Hx. destruct (Nat.eqb_spec v x) as [->|]; [contradiction|reflexivity].
    - rewrite (IH HN' Hi). destruct (Nat.eqb_spec v a) as [->|]; [contradiction|lia]. }
  apply G; [apply seq_NoDup|apply in_seq; lia].
Qed.
Lemma cnt_sum {A} (p : A -> bool) l : cnt p l = sumZ (map (fun x => if p x then 1%Z else 0%Z) l).
Proof. induction l as [|a l IH]; [reflexivity|]. rewrite cnt_cons, IH. reflexivity. Qed.
Lemma shows_sym w u v l : shows w u v l = shows w v u l.
Proof.
  unfold shows. set (L := seq 0 (length l)).
  assert (G : forall u v, lenZ (filter (fun ij : nat * nat => near w (fst ij) (snd ij) && Nat.eqb (nth (fst ij) l O) u && Nat.eqb (nth (snd ij) l O) v) (list_prod L L)) =
    sumZ (map (fun i => sumZ (map (fun j => if near w i j && Nat.eqb (nth i l O) u && Nat.eqb (nth j l O) v then 1%Z else 0%Z) L)) L)).
  { intros u' v'. rewrite list_prod_flat. change (lenZ (filter ?p ?x)) with (cnt p x). rewrite cnt_flat_map. apply sumZ_map_ext. intros i _. rewrite cnt_map. cbn [fst snd]. apply cnt_sum. }
  rewrite !G, sumZ_swap. apply sumZ_map_ext. intros i _. apply sumZ_map_ext. intros j _.
  replace (near w j i) with (near w i j); [|unfold near; rewrite (Nat.eqb_sym i j); f_equal; f_equal; lia].
  destruct (near w i j), (Nat.eqb (nth i l O) v), (Nat.eqb (nth j l O) u); reflexivity.
Qed.
Lemma together_sym w walks u v : together w walks u v = together w walks v u.
Proof. unfold together. apply sumZ_map_ext. intros l _. apply shows_sym. Qed.
Lemma cnt_fst n u pairs : (forall k, In k pairs -> (snd k < n)%nat) -> cnt (fun k : nat * nat => Nat.eqb (fst k) u) pairs = sumZ (map (fun v => cnt (pairis u v) pairs) (seq 0 n)).
Proof.
  intros Hk. rewrite cnt_sum. rewrite (sumZ_map_ext (fun v => cnt (pairis u v) pairs) (fun v => sumZ (map (fun k => if pairis u v k then 1%Z else 0%Z) pairs))) by (intros; apply cnt_sum).
  rewrite <- sumZ_swap. apply sumZ_map_ext. intros k Hin. unfold pairis. destruct (Nat.eqb (fst k) u); cbn [andb].
  - symmetry. apply sumZ_pick. apply Hk. exact Hin.
  - symmetry. apply sumZ_zero. reflexivity.
Qed.
Lemma cnt_snd n v pairs : (forall k, In k pairs -> (fst k < n)%nat) -> cnt (fun k : nat * nat => Nat.eqb (snd k) v) pairs = sumZ (map (fun u => cnt (pairis u v) pairs) (seq 0 n)).
Proof.
  intros Hk. rewrite cnt_sum. rewrite (sumZ_map_ext (fun u => cnt (pairis u v) pairs) (fun u => sumZ (map (fun k => if pairis u v k then 1%Z else 0%Z) pairs))) by (intros; apply cnt_sum).
  rewrite <- sumZ_swap. apply sumZ_map_ext. intros k Hin. unfold pairis. destruct (Nat.eqb (snd k) v).
  - rewrite (sumZ_map_ext _ (fun u => if Nat.eqb (fst k) u then 1%Z else 0%Z)) by (intros x _; rewrite andb_true_r; reflexivity). symmetry. apply sumZ_pick. apply Hk. exact Hin.
  - symmetry. apply sumZ_zero. intros x _. rewrite andb_false_r. reflexivity.
Qed.
Lemma cnt_all n pairs : (forall k, In k pairs -> (fst k < n)%nat) -> lenZ pairs = sumZ (map (fun u => cnt (fun k : nat * nat => Nat.eqb (fst k) u) pairs) (seq 0 n)).
Proof.
  intros Hk. rewrite (sumZ_map_ext _ (fun u => sumZ (map (fun k => if Nat.eqb (fst k) u then 1%Z else 0%Z) pairs))) by (intros; apply cnt_sum).
  rewrite <- sumZ_swap. rewrite (sumZ_map_ext _ (fun _ => 1%Z)) by (intros k Hin; apply sumZ_pick; apply Hk; exact Hin).
  unfold lenZ. clear Hk. induction pairs as [|k p IH]; [reflexivity|]. cbn [List.length map]. unfold sumZ in *. cbn [fold_right]. lia.
Qed.
Lemma cooccurrence_spec n w walks : (forall l x, In l walks -> In x l -> (x < n)%nat) ->
  let s := cooccurrence n w walks in
  (forall u v, lookup_pair u v (co_counts s) = asked (together w walks u v)) /\
  (forall u, nth u (co_row s) 0%Z = together_with w walks n u) /\ (forall u, nth u (co_col s) 0%Z = together_with w walks n u) /\ co_total s = together_all w walks n.
Proof.
  intros HW. cbn zeta. set (pairs := flat_map (window_pairs w) walks).
  assert (HP : forall k, In k pairs -> (fst k < n)%nat /\ (snd k < n)%nat).
  { intros k Hk. apply in_flat_map in Hk as (l & Hl & Hk). destruct (window_pairs_In w l k Hk) as [H1 H2]. split; apply (HW l); assumption. }
  unfold cooccurrence. fold pairs. set (s0 := {| co_counts := []; co_row := repeat 0%Z n; co_col := repeat 0%Z n; co_total := 0 |}).
  destruct (fold_counts n pairs s0 HP) as (A1 & A2 & A3 & A4 & _); [apply repeat_length|apply repeat_length|].
  assert (R : forall u, cnt (fun k : nat * nat => Nat.eqb (fst k) u) pairs = together_with w walks n u).
  { intros u. rewrite (cnt_fst n) by (intros k Hk; apply HP; exact Hk). unfold together_with. apply sumZ_map_ext. intros v _. apply together_pairs. }
  split; [intros u v; rewrite (A1 u v 0%Z); [f_equal; rewrite <- together_pairs; reflexivity|reflexivity|lia]|].
  split; [intros u; rewrite A2; cbn [co_row s0]; unfold s0; cbn [co_row]; rewrite nth_repeat, R; lia|].
  split; [intros u; rewrite A3; unfold s0; cbn [co_col]; rewrite nth_repeat, (cnt_snd n) by (intros k Hk; apply HP; exact Hk)|].
  - rewrite Z.add_0_l. unfold together_with. apply sumZ_map_ext. intros v _. rewrite (together_sym w walks u v). apply together_pairs.
  - rewrite A4. unfold s0. cbn [co_total]. rewrite Z.add_0_l, (cnt_all n) by (intros k Hk; apply HP; exact Hk). unfold together_all. apply sumZ_map_ext. intros u _. apply R.
Qed.
Lemma together_nonneg w walks u v : (0 <= together w walks u v)%Z.
Proof. rewrite <- together_pairs. apply cnt_nonneg. Qed.
Lemma sumZ_ge {A} (f : A -> Z) l x : (forall y, In y l -> (0 <= f y)%Z) -> In x l -> (f x <= sumZ (map f l))%Z.
Proof.
  induction l as [|a l IH]; intros Hf Hx; [destruct Hx|]. cbn [map sumZ].
  assert (G : (0 <= sumZ (map f l))%Z). { apply sumZ_nonneg. apply Forall_forall. intros z Hz. apply in_map_iff in Hz as (y & <- & Hy). apply Hf. right. exact Hy. }
  assert (Fa : (0 <= f a)%Z) by (apply Hf; left; reflexivity). destruct Hx as [->|Hx]; [lia|]. assert (IH' := IH (fun y Hy => Hf y (or_intror Hy)) Hx). lia.
Qed.
Lemma ppmi_entry log n w walks u v : (forall l x, In l walks -> In x l -> (x < n)%nat) -> (u < n)%nat -> (v < n)%nat ->
  positive_pmi log w walks n u v (entry (ppmi log n (cooccurrence n w walks)) u v).
Proof.
  intros HW Hu Hv. destruct (cooccurrence_spec n w walks HW) as (A1 & A2 & A3 & A4). unfold ppmi. rewrite entry_tabulate by assumption.
  rewrite A1. unfold asked, positive_pmi. destruct (Z.eqb_spec (together w walks u v) 0) as [E0|E0]; [reflexivity|].
  rewrite A2, A3, A4. cbn zeta.
  assert (P := together_nonneg w walks u v).
  assert (R1 : (0 < together_with w walks n u)%Z).
  { assert (together w walks u v <= together_with w walks n u)%Z; [|lia]. apply (sumZ_ge (together w walks u)); [intros; apply together_nonneg|apply in_seq; lia]. }
  assert (R2 : (0 < together_with w walks n v)%Z).
  { assert (together w walks v u <= together_with w walks n v)%Z; [|assert (SY := together_sym w walks v u); lia]. apply (sumZ_ge (together w walks v)); [intros; apply together_nonneg|apply in_seq; lia]. }
  replace ((0 <? together_with w walks n u)%Z && (0 <? together_with w walks n v)%Z) with true by lia.
  set (x := log _). destruct (Qle_bool x 0) eqn:C.
  - apply Qle_bool_iff in C. symmetry. apply Q.max_l. exact C.
  - symmetry. apply Q.max_r. apply Qlt_le_weak, Qnot_le_lt. intros C'. apply Qle_bool_iff in C'. congruence.
Qed.

(* ---- embeddings *)
Lemma scaled_shape n dim U s : shape n (Z.to_nat dim) (scaled_columns n dim U s).
Proof. apply shape_tabulate. Qed.
Lemma scaled_entry n dim U s i c : (i < n)%nat -> (c < Z.to_nat dim)%nat -> entry (scaled_columns n dim U s) i c = if Nat.ltb c (length s) then entry U i c * nth c s 0 else 0.
Proof.
  intros Hi Hc. unfold scaled_columns. rewrite entry_tabulate by assumption.
  replace (Nat.ltb c (Nat.min (Z.to_nat dim) (length s))) with (Nat.ltb c (length s)); [reflexivity|]. destruct (Nat.ltb_spec c (length s)), (Nat.ltb_spec c (Nat.min (Z.to_nat dim) (length s))); lia.
Qed.
Lemma svd_project n M U s V i c : svd_factors n M U s V -> (i < n)%nat -> (c < n)%nat -> entry U i c * nth c s 0 == sum_to n (fun j => entry M i j * V c j).
Proof.
  intros (_ & _ & HV & _ & HM) Hi Hc.
  rewrite (sum_ext n (fun j => entry M i j * V c j) (fun j => sum_to n (fun a => (entry U i a * nth a s 0) * (V a j * V c j)))).
  - rewrite sum_swap. rewrite (sum_ext n _ (fun a => (entry U i a * nth a s 0) * delta a c)).
    + symmetry. rewrite (sum_delta_l n c (fun a => entry U i a * nth a s 0) Hc). reflexivity.
    + intros a Ha. rewrite sum_scale, (HV a c Ha Hc). reflexivity.
  - intros j Hj. rewrite (HM i j Hi Hj). rewrite <- sum_scale_r. apply sum_ext. intros a _. ring.
Qed.
Lemma svd_gram n M U s V i k : svd_factors n M U s V -> (i < n)%nat -> (k < n)%nat ->
  sum_to n (fun a => (entry U i a * nth a s 0) * (entry U k a * nth a s 0)) == sum_to n (fun j => entry M i j * entry M k j).
Proof.
  intros HS Hi Hk. pose proof HS as (_ & _ & _ & _ & HM).
  rewrite (sum_ext n (fun j => entry M i j * entry M k j) (fun j => sum_to n (fun a => (entry U k a * nth a s 0) * (entry M i j * V a j)))).
  - rewrite sum_swap. apply sum_ext. intros a Ha. rewrite sum_scale, <- (svd_project n M U s V i a HS Hi Ha). ring.
  - intros j Hj. rewrite (HM k j Hk Hj). rewrite <- sum_scale. apply sum_ext. intros a _. ring.
Qed.
Lemma sum_to_app n m f : sum_to (n + m) f == sum_to n f + sum_to m (fun i => f (n + i)%nat).
Proof.
  unfold sum_to. rewrite seq_app, map_app, Qsum_app. apply Qplus_comp; [reflexivity|]. rewrite Nat.add_0_l.
  assert (G : forall l, map f (map (fun i => n + i)%nat l) = map (fun i => f (n + i)%nat) l) by (intros l; apply map_map).
  rewrite <- G. assert (SE : map (fun i => n + i)%nat (seq 0 m) = seq n m); [|rewrite SE; reflexivity].
  clear. revert n. induction m as [|m IH]; intros n; [reflexivity|]. cbn [seq map]. rewrite Nat.add_0_r. f_equal. rewrite <- (IH (S n)). rewrite <- seq_shift, map_map. apply map_ext. intros. lia.
Qed.
Lemma sum_pad n m f : (n <= m)%nat -> (forall i, (n <= i < m)%nat -> f i == 0) -> sum_to m f == sum_to n f.
Proof.
  intros Hnm Hf. replace m with (n + (m - n))%nat by lia. rewrite sum_to_app, (sum_zero (m - n)); [ring|]. intros i Hi. apply Hf. lia.
Qed.
Section Embed.
Variables (rng : Type) (fresh : Z -> rng) (choice : rng -> list nat -> nat * rng) (choice_p : rng -> list nat -> list Q -> nat * rng) (mix : Z -> Z -> Z).
Variables (sp : struct_params) (n : Z) (ei : list (Z * Z)) (seed : Z).
Hypothesis Hc : choice_ok choice.
Hypothesis Hcp : choice_p_ok choice_p.
Hypothesis Hp : 0 < sp_p sp.
Hypothesis Hq : 0 < sp_q sp.
Lemma random_walks_spec ws : random_walks rng fresh choice choice_p mix sp (nbrs n ei) (Z.to_nat n) seed = Ok ws ->
  walks_from_all n ei (sp_num_walks sp) (sp_walk_length sp) ws.
Proof using Hc Hcp Hp Hq.
  unfold random_walks. destruct (Z.to_nat n) as [|m] eqn:En.
  - intros [= <-]. exists (fun _ _ => []). rewrite En. split; [reflexivity|]. intros s k Hs. lia.
  - destruct (Z.leb_spec (sp_num_walks sp) 0) as [Hn|Hn].
    + intros [= <-]. exists (fun _ _ => []). replace (Z.to_nat (sp_num_walks sp)) with O by lia. split; [|intros; lia]. cbn [seq map]. induction (seq 0 (Z.to_nat n)); [reflexivity|assumption].
    + destruct (Z.ltb_spec (sp_walk_length sp) 0); [discriminate|]. destruct (Z.eqb_spec (sp_walk_length sp) 0); [discriminate|]. intros [= <-].
      exists (one_walk rng fresh choice choice_p mix sp (nbrs n ei) seed). rewrite En. split; [reflexivity|]. intros s k Hs Hk.
      split; [reflexivity|]. split; [apply one_walk_length; lia|apply one_walk_moves; assumption].
Qed.
End Embed.
Lemma walks_inside n ei num len ws : walks_from_all n ei num len ws -> forall l x, In l ws -> In x l ->
  exists s, (s < Z.to_nat n)%nat /\ leads (move n ei) s x.
Proof.
  intros (W & -> & HW) l x Hl Hx. apply in_flat_map in Hl as (s & Hs & Hl). apply in_map_iff in Hl as (k & <- & Hk). apply in_seq in Hs, Hk.
  destruct (HW s k ltac:(lia) ltac:(lia)) as (Hhd & _ & Hm). exists s. split; [lia|]. destruct (W s k) as [|y l]; [discriminate|]. cbn [hd_error] in Hhd. injection Hhd as ->.
  apply (moves_leads (move n ei) l s s); [apply leads_here|exact Hm|exact Hx].
Qed.
Lemma walk_linked n ei num len ws l u v : walks_from_all n ei num len ws -> In l ws -> In u l -> In v l ->
  exists s, (s < Z.to_nat n)%nat /\ leads (move n ei) s u /\ leads (move n ei) s v.
Proof.
  intros (W & -> & HW) Hl Hu Hv. apply in_flat_map in Hl as (s & Hs & Hl). apply in_map_iff in Hl as (k & <- & Hk). apply in_seq in Hs, Hk.
  destruct (HW s k ltac:(lia) ltac:(lia)) as (Hhd & _ & Hm). exists s. split; [lia|]. destruct (W s k) as [|y l]; [discriminate|]. cbn [hd_error] in Hhd. injection Hhd as ->.
  split; (apply (moves_leads (move n ei) l s s); [apply leads_here|exact Hm|assumption]).
Qed.
Lemma together_walk w ws u v : together w ws u v <> 0%Z -> exists l, In l ws /\ In u l /\ In v l.
Proof.
  intros H. rewrite <- together_pairs in H. unfold cnt in H. destruct (filter (pairis u v) (flat_map (window_pairs w) ws)) as [|k r] eqn:F; [contradiction H; reflexivity|].
  assert (Hk : In k (k :: r)) by (left; reflexivity). rewrite <- F in Hk. apply filter_In in Hk as [Hk C]. apply in_flat_map in Hk as (l & Hl & Hk).
  destruct (window_pairs_In w l k Hk) as [H1 H2]. unfold pairis in C. apply andb_true_iff in C as [C1 C2]. apply Nat.eqb_eq in C1, C2. subst. exists l. auto.
Qed.
