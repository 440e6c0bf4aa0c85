From Coq Require Import QArith Qminmax Lqa String ZifyBool ZifyNat Lia.
From Verif Require Import Prelude QFacts TbackModel TbackSpec TbackProofs.
Local Open Scope string_scope.
Local Open Scope Z_scope.
Local Open Scope list_scope.
Local Notation length := List.length.

(* ---- C169: the two backends of the transductive operators compute the same *)
(* both products answer with the weighted sums of the sources' rows *)
Theorem C169_product n k E weight w X : given weight E w -> nodes n E -> shaped n k X ->
  exists A B, np_spmm n k E weight false X = Ok A /\ torch_spmm n k E weight X = Ok B /\ same n k A B /\
              forall i c, (i < n)%nat -> (c < k)%nat -> (at_ A i c == received E w X i c)%Q.
Proof.
  intros Hw Hn HX. destruct (np_spmm_ok n k E weight w X Hw Hn HX) as (A & HA & SA & VA). destruct (torch_spmm_ok n k E weight w X Hw Hn HX) as (B & HB & SB & VB).
  exists A, B. split; [exact HA|]. split; [exact HB|]. split; [|exact VA]. split; [exact SA|]. split; [exact SB|]. intros i c Hi Hc. rewrite (VA i c Hi Hc), (VB i c Hi Hc). reflexivity.
Qed.
(* whenever the torch backend answers, so does the numpy backend, and alike *)
Theorem C169_torch_answers n k E weight X B : (forall r, In r X -> length r = k) -> torch_spmm n k E weight X = Ok B ->
  exists A, np_spmm n k E weight false X = Ok A /\ same n k A B.
Proof.
  intros HX HB. destruct (torch_spmm_inv n k E weight X B HB) as [-> | (w & Hw & Hn & Hl)].
  - cbn in HB. injection HB as <-. exists (zeros n k). split; [reflexivity|]. repeat split; try apply shaped_zeros; reflexivity.
  - destruct (C169_product n k E weight w X Hw Hn (conj Hl HX)) as (A & B' & HA & HB' & HS & _). rewrite HB' in HB. injection HB as <-. eauto.
Qed.
(* what the torch product refuses: given edges, other numbers of weights, edges to or from no node, other numbers of rows *)
Theorem C169_torch_refuses n k E weight X : (exists x, torch_spmm n k E weight X = Err x) <-> E <> [] /\ ~ ((exists w, given weight E w) /\ nodes n E /\ length X = n).
Proof.
  split.
  - intros [x Hx]. split; [intros ->; discriminate|]. intros ((w & Hw) & Hn & Hl). destruct E as [|e0 E0]; [discriminate|]. remember (e0 :: E0) as E eqn:HE.
    unfold torch_spmm in Hx. rewrite HE in Hx at 1. rewrite (proj2 (weights_given weight E w) Hw) in Hx. cbn [bind] in Hx. rewrite (proj2 (all_inside n E) Hn) in Hx. cbn [negb] in Hx.
    rewrite Hl, Nat.eqb_refl in Hx. discriminate.
  - intros [H1 H2]. destruct (torch_spmm n k E weight X) as [B|x] eqn:HB; [|eauto]. exfalso. destruct (torch_spmm_inv n k E weight X B HB) as [-> | (w & Hw & Hn & Hl)]; [apply H1; reflexivity|].
    apply H2. eauto.
Qed.
(* what the numpy product refuses: given edges, other numbers of weights, sources outside the rows and destinations outside the nodes, each counted from either end *)
Theorem C169_numpy_refuses n k E weight X : (exists x, np_spmm n k E weight false X = Err x) <->
  E <> [] /\ ~ ((exists w, given weight E w) /\ forall s d, In (s, d) E -> - Z.of_nat (length X) <= s < Z.of_nat (length X) /\ - Z.of_nat n <= d < Z.of_nat n).
Proof.
  destruct E as [|e0 E0]; [split; [intros [x Hx]; discriminate|intros [H _]; congruence]|]. remember (e0 :: E0) as E eqn:HE.
  assert (Hu : np_spmm n k E weight false X = (do w <- ensure_edge_weight weight E; do src <- positions (length X) (map fst E); do dst <- positions n (map snd E);
    Ok (add_at (zeros n k) (combine dst (map (fun p => scale (fst p) (nth (snd p) X [])) (combine w src)))))) by (unfold np_spmm; rewrite HE; reflexivity).
  rewrite Hu. clear Hu. assert (HS := positions_ok (length X) (map fst E)). assert (HD := positions_ok n (map snd E)). split.
  - intros [x Hx]. split; [congruence|]. intros [[w Hw] Hb]. rewrite (proj2 (weights_given weight E w) Hw) in Hx. cbn [bind] in Hx.
    destruct (proj2 HS) as [ps Hps]; [intros i Hi; apply in_map_iff in Hi; destruct Hi as ([s d] & <- & Hin); apply (Hb s d Hin)|].
    destruct (proj2 HD) as [qs Hqs]; [intros i Hi; apply in_map_iff in Hi; destruct Hi as ([s d] & <- & Hin); apply (Hb s d Hin)|].
    rewrite Hps in Hx. cbn [bind] in Hx. rewrite Hqs in Hx. discriminate.
  - intros [_ Hn]. destruct (ensure_edge_weight weight E) as [w|x] eqn:Ew; [|eexists; reflexivity]. cbn [bind]. destruct (positions (length X) (map fst E)) as [ps|x]; [|eexists; reflexivity]. cbn [bind].
    destruct (positions n (map snd E)) as [qs|x]; [|eexists; reflexivity]. exfalso. apply Hn. split; [exists w; apply weights_given; exact Ew|]. intros s d Hin.
    split; [apply (proj1 HS (ex_intro _ ps eq_refl))|apply (proj1 HD (ex_intro _ qs eq_refl))]; apply in_map_iff; exists (s, d); auto.
Qed.
Section Normalise.
Variable root : Q -> Q.
Variable eps : Q.
Hypothesis root_ext : forall x y, (x == y)%Q -> (root x == root y)%Q.
(* normalised weights: both backends give the same, which are the weights over the (clamped) totals *)
Theorem C169_weights n E weight w mode : given weight E w -> nodes n E -> In mode ["none"; "rw"; "sym"] ->
  exists R, np_normalize root eps n E weight mode = Ok R /\ torch_normalize root eps n E weight mode = Ok R /\ length R = length E /\
    forall j s d q r, nth_error E j = Some (s, d) -> nth_error w j = Some q -> nth_error R j = Some r ->
      (mode = "none" -> r == q)%Q /\
      (mode = "rw" -> r == q / Qmax (arriving E w d) eps)%Q /\
      (mode = "sym" -> r == q / root (Qmax (arriving E w d) eps * Qmax (arriving E w s) eps))%Q.
Proof using root_ext.
  intros Hw Hn Hm. destruct (normalize_spec root eps root_ext n E weight w mode Hw Hn Hm) as (R & H1 & H2 & H3 & H4). exists R. repeat split; auto; intros ->; apply (H4 j (s, d) q r); assumption.
Qed.
Theorem C169_torch_weights n E weight mode R : torch_normalize root eps n E weight mode = Ok R -> np_normalize root eps n E weight mode = Ok R.
Proof using Type. apply torch_np_normalize. Qed.
(* a mode that is none of the three is refused when there is an edge *)
Theorem C169_mode n e E weight mode : ~ In mode ["none"; "rw"; "sym"] ->
  (exists x, np_normalize root eps n (e :: E) weight mode = Err x) /\ (exists x, torch_normalize root eps n (e :: E) weight mode = Err x).
Proof using Type.
  intros Hm. assert (H1 : String.eqb mode "none" = false) by (apply String.eqb_neq; intros ->; apply Hm; cbn; auto).
  assert (H2 : String.eqb mode "rw" = false) by (apply String.eqb_neq; intros ->; apply Hm; cbn; auto).
  assert (H3 : String.eqb mode "sym" = false) by (apply String.eqb_neq; intros ->; apply Hm; cbn; auto).
  unfold np_normalize, torch_normalize. destruct (ensure_edge_weight weight (e :: E)) as [w|x]; [|split; exists x; reflexivity]. cbn [bind]. rewrite H1, H2, H3. split.
  - destruct (positions n (map snd (e :: E))) as [ps|x]; eexists; reflexivity.
  - destruct (negb _); eexists; reflexivity.
Qed.
(* random walk: the weights arriving at a node add up to 1 if their total is at least eps *)
Theorem C169_random_walk n E weight w R i : (0 < eps)%Q -> given weight E w -> nodes n E -> np_normalize root eps n E weight "rw" = Ok R ->
  (eps <= arriving E w i)%Q -> (arriving E R i == 1)%Q.
Proof using root_ext.
  intros He Hw Hn HR Hi. destruct (C169_weights n E weight w "rw" Hw Hn ltac:(cbn; auto)) as (R' & H1 & _ & Hl & H4). rewrite HR in H1. injection H1 as <-.
  rewrite (shares_sum E w R (fun d => Qmax (arriving E w d) eps) i (proj1 Hw) Hl).
  - rewrite (Q.max_l _ _ Hi). field. intros H0. rewrite H0 in Hi. lra.
  - intros j [s d] q r H5 H6 H7. apply (proj1 (proj2 (H4 j s d q r H5 H6 H7)) eq_refl).
Qed.
(* the Laplacian x - S x: both backends agree, and the random-walk Laplacian of a constant column vanishes at every node with a total of at least eps *)
Theorem C169_laplacian n k E weight w kind X : given weight E w -> nodes n E -> shaped n k X -> In kind ["rw"; "sym"] ->
  exists A B, np_laplacian root eps n k E weight kind X = Ok A /\ torch_laplacian root eps n k E weight kind X = Ok B /\ same n k A B.
Proof using root_ext.
  intros Hw Hn HX Hk. destruct (C169_weights n E weight w kind Hw Hn ltac:(cbn; cbn in Hk; tauto)) as (R & H1 & H2 & Hl & _).
  assert (HR : given (Some R) E R) by (split; [exact Hl|reflexivity]). destruct (C169_product n k E (Some R) R X HR Hn HX) as (A & B & HA & HB & (SA & SB & SV) & _).
  unfold np_laplacian, torch_laplacian. rewrite H1, H2. cbn [bind]. rewrite HA, HB. cbn [bind]. exists (sub X A), (sub X B). split; [reflexivity|]. split; [reflexivity|].
  split; [apply sub_shaped; assumption|]. split; [apply sub_shaped; assumption|]. intros i c Hi Hc. rewrite (sub_at n k X A i c HX SA Hi Hc), (sub_at n k X B i c HX SB Hi Hc), (SV i c Hi Hc). reflexivity.
Qed.
Theorem C169_constant n k E weight w X A i c x : (0 < eps)%Q -> given weight E w -> nodes n E -> shaped n k X -> np_laplacian root eps n k E weight "rw" X = Ok A ->
  (i < n)%nat -> (c < k)%nat -> (forall j, (j < n)%nat -> (at_ X j c == x)%Q) -> (eps <= arriving E w (Z.of_nat i))%Q -> (at_ A i c == 0)%Q.
Proof using root_ext.
  intros He Hw Hn HX HA Hi Hc Hx Hd. destruct (C169_weights n E weight w "rw" Hw Hn ltac:(cbn; auto)) as (R & H1 & _ & Hl & _).
  assert (HR : given (Some R) E R) by (split; [exact Hl|reflexivity]). destruct (np_spmm_ok n k E (Some R) R X HR Hn HX) as (S' & HS & SS & SV).
  unfold np_laplacian in HA. rewrite H1 in HA. cbn [bind] in HA. rewrite HS in HA. cbn [bind] in HA. injection HA as <-. rewrite (sub_at n k X S' i c HX SS Hi Hc), (SV i c Hi Hc).
  rewrite (received_const E R X i c x) by (intros s d Hin; apply Hx; assert (H := proj1 (Hn s d Hin)); unfold node in H; lia).
  rewrite (C169_random_walk n E weight w R (Z.of_nat i) He Hw Hn H1 Hd), (Hx i Hi). ring.
Qed.
End Normalise.

(* corners *)
(* an edge from node -1: the numpy backend reads the last node, the torch backend fails *)
Theorem C169_negative_refuted : exists n k E X A x,
  np_spmm n k E None false X = Ok A /\ torch_spmm n k E None X = Err x /\ ~ nodes n E /\ A = [[7]; [0]]%Q.
Proof.
  exists 2%nat, 1%nat, [(-1, 0)], [[5]; [7]]%Q, [[7]; [0]]%Q, RuntimeError. repeat split; try reflexivity.
  intros H. destruct (H (-1) 0 (or_introl eq_refl)) as [H1 _]. unfold node in H1. lia.
Qed.
(* integer features: the numpy backend makes the weights integers, so that a weight of 1/2 counts nothing *)
Theorem C169_integer_refuted : exists n k E w X A B,
  given (Some w) E w /\ nodes n E /\ shaped n k X /\ np_spmm n k E (Some w) true X = Ok A /\ torch_spmm n k E (Some w) X = Ok B /\
  (at_ A 0 0 == 0)%Q /\ (at_ B 0 0 == 2)%Q.
Proof.
  exists 2%nat, 1%nat, [(1, 0)], [1 # 2]%Q, [[3]; [4]]%Q.
  eexists. eexists. split; [split; reflexivity|]. split; [intros s d [[= <- <-]|[]]; unfold node; lia|]. split; [split; [reflexivity|]; intros r [<-|[<-|[]]]; reflexivity|].
  split; [reflexivity|]. split; [reflexivity|]. split; reflexivity.
Qed.
(* without edges an unknown mode is accepted *)
Theorem C169_no_edges_refuted root eps : exists mode, ~ In mode ["none"; "rw"; "sym"] /\
  np_normalize root eps 3 [] None mode = Ok [] /\ torch_normalize root eps 3 [] None mode = Ok [].
Proof. exists "symmetric". repeat split. cbn. intros [H|[H|[H|[]]]]; discriminate. Qed.

(* a graph with a repeated edge and a loop *)
Definition demo_edges : list (Z * Z) := [(0, 1); (2, 1); (0, 1); (1, 1); (1, 0)].
Definition demo_weights : list Q := [1; 2; 3; 1 # 2; 4]%Q.
Definition demo_matrix : matrix := [[1; 0]; [2; 1]; [3; -1 # 1]]%Q.
Example demo_ok : given (Some demo_weights) demo_edges demo_weights /\ nodes 3 demo_edges /\ shaped 3 2 demo_matrix.
Proof.
  split; [split; reflexivity|]. split; [|split; [reflexivity|]; intros r [<-|[<-|[<-|[]]]]; reflexivity].
  intros s d H. cbn in H. unfold node. repeat destruct H as [[= <- <-]|H]; try lia.
Qed.
Example demo_product : exists A B, np_spmm 3 2 demo_edges (Some demo_weights) false demo_matrix = Ok A /\ torch_spmm 3 2 demo_edges (Some demo_weights) demo_matrix = Ok B /\
  (at_ A 1 0 == 11)%Q /\ (at_ B 1 0 == 11)%Q /\ (at_ A 1 1 == - 3 / 2)%Q /\ (at_ B 2 0 == 0)%Q.
Proof. eexists. eexists. split; [reflexivity|]. split; [reflexivity|]. repeat split; reflexivity. Qed.
Example demo_total : (1 # 1000 <= arriving demo_edges demo_weights 1)%Q /\ (0 < 1 # 1000)%Q.
Proof. split; vm_compute; [discriminate|reflexivity]. Qed.
Example demo_root : forall x y, (x == y)%Q -> ((fun q => q) x == (fun q => q) y)%Q. Proof. auto. Qed.
Example demo_laplacian : exists A, np_laplacian (fun q => q) (1 # 1000) 3 2 demo_edges (Some demo_weights) "rw" demo_matrix = Ok A. Proof. eexists. reflexivity. Qed.
Example demo_refused : exists x, torch_spmm 3 2 [(3, 0)] None demo_matrix = Err x. Proof. eexists. reflexivity. Qed.
Example demo_mode : ~ In "rwn" ["none"; "rw"; "sym"]. Proof. cbn. intros [H|[H|[H|[]]]]; discriminate. Qed.

Print Assumptions C169_product.
Print Assumptions C169_torch_answers.
Print Assumptions C169_torch_refuses.
Print Assumptions C169_numpy_refuses.
Print Assumptions C169_weights.
Print Assumptions C169_torch_weights.
Print Assumptions C169_mode.
Print Assumptions C169_random_walk.
Print Assumptions C169_laplacian.
Print Assumptions C169_constant.
Print Assumptions C169_negative_refuted.
Print Assumptions C169_integer_refuted.
Print Assumptions C169_no_edges_refuted.
