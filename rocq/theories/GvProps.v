(* C123 and C124: the diffusion view and the structural view of a graph. *)
From Coq Require Import QArith Qminmax Qabs Lqa ZifyBool ZifyNat.
From Verif Require Import Prelude ListFacts QFacts TransModel TransSpec TransProofs PcaSpec PcaProofs GvModel GvSpec GvProofs.
Local Open Scope Q_scope.
Local Open Scope list_scope.
Local Notation length := List.length.

(* ------------------------------------------------------------------ C123: diffusion *)
(* the view is returned exactly when X has one row per node and either scipy is installed or the graph is small *)
Theorem C123_returns : forall tiny scipy n d E steps a X,
  ((exists R, diffusion_view tiny scipy n d E steps a X = Ok R) <-> lenZ X = n /\ (scipy = true \/ (n <= 4096)%Z)) /\
  (diffusion_view tiny scipy n d E steps a X = Err GraphValidationError <-> lenZ X <> n).
Proof.
  intros tiny scipy n d E steps a X. unfold diffusion_view. destruct (Z.eqb_spec (lenZ X) n) as [H|H]; cbn [negb].
  - cbn zeta. destruct scipy.
    + split; [split; [intros _; split; [exact H|left; reflexivity]|intros _; eexists; reflexivity]|split; [discriminate|intros C; contradiction]].
    + destruct (n >? 4096)%Z eqn:C.
      * split; [split; [intros [R HR]; discriminate HR|intros [_ [C'|C']]; [discriminate C'|lia]]|split; [discriminate|intros C'; contradiction]].
      * split; [split; [intros _; split; [exact H|right; lia]|intros _; eexists; reflexivity]|split; [discriminate|intros C'; contradiction]].
  - split; [split; [intros [R HR]; discriminate HR|intros [C _]; contradiction]|split; [intros _; exact H|reflexivity]].
Qed.
Lemma view_is tiny n d E steps a X R : diffusion_view tiny true n d E steps a X = Ok R ->
  lenZ X = n /\ R = Nat.iter (Z.to_nat steps) (diffuse (csr_entry (w_norm tiny E)) (length X) d a X) X.
Proof.
  unfold diffusion_view. destruct (Z.eqb_spec (lenZ X) n) as [H|H]; [|discriminate]. cbn [negb]. cbn zeta. intros [= <-]. split; [exact H|].
  replace (Z.to_nat n) with (length X) by (unfold lenZ in H; lia). reflexivity.
Qed.
(* the features after [steps] steps of the documented recurrence, started from X *)
Theorem C123_recurrence : forall tiny n d E steps a X R,
  shape (Z.to_nat n) d X -> inside n E -> diffusion_view tiny true n d E steps a X = Ok R ->
  shape (Z.to_nat n) d R /\
  exists H : nat -> nat -> nat -> Q, agree (Z.to_nat n) d (H O) (entry X) /\
    (forall t, agree (Z.to_nat n) d (H (S t)) (spread tiny E a (entry X) (H t))) /\ agree (Z.to_nat n) d (entry R) (H (Z.to_nat steps)).
Proof.
  intros tiny n d E steps a X R HX HE HR. apply view_is in HR as [Hn ->]. assert (EL : Z.to_nat n = length X) by (unfold lenZ in Hn; lia). rewrite EL in *.
  split; [apply iter_shape; exact HX|]. exists (fun t => entry (Nat.iter t (diffuse (csr_entry (w_norm tiny E)) (length X) d a X) X)).
  split; [intros i c _ _; reflexivity|]. split; [|intros i c _ _; reflexivity]. intros t. apply R_step. unfold lenZ in Hn. rewrite Hn. exact HE.
Qed.
Print Assumptions C123_returns.
Print Assumptions C123_recurrence.
(* no value leaves the range of its column (with 0 added when some node has next to no outgoing weight) *)
Theorem C123_bounds : forall tiny n d E steps a X R lo hi c i,
  0 < tiny -> 0 <= a <= 1 -> (forall e, In e E -> 0 <= e_w e) -> inside n E -> diffusion_view tiny true n d E steps a X = Ok R ->
  (c < d)%nat -> (i < Z.to_nat n)%nat -> (forall j, (j < Z.to_nat n)%nat -> lo <= entry X j c <= hi) ->
  lo <= 0 <= hi \/ (forall j, (j < Z.to_nat n)%nat -> tiny <= out_weight E j) ->
  lo <= entry R i c <= hi.
Proof.
  intros tiny n d E steps a X R lo hi c i Ht Ha Hw HE HR Hc Hi HX Hor. apply view_is in HR as [Hn ->]. assert (EL : Z.to_nat n = length X) by (unfold lenZ in Hn; lia). rewrite EL in *.
  assert (HE' : inside (Z.of_nat (length X)) E) by (unfold lenZ in Hn; rewrite Hn; exact HE).
  exact (R_bounds tiny E (length X) d a X Ht Hw HE' Ha lo hi c (Z.to_nat steps) Hc Hor HX i Hi).
Qed.
Print Assumptions C123_bounds.
(* every step brings the features closer, by the factor 1 - alpha, to the stationary solution of the recurrence *)
Theorem C123_converges : forall tiny n d E steps a X R F B c i,
  0 < tiny -> 0 <= a <= 1 -> (forall e, In e E -> 0 <= e_w e) -> inside n E -> diffusion_view tiny true n d E steps a X = Ok R ->
  (c < d)%nat -> (i < Z.to_nat n)%nat -> agree (Z.to_nat n) d F (spread tiny E a (entry X) F) ->
  (forall j, (j < Z.to_nat n)%nat -> Qabs (entry X j c - F j c) <= B) -> Qabs (entry R i c - F i c) <= (1 - a) ^ Z.of_nat (Z.to_nat steps) * B.
Proof.
  intros tiny n d E steps a X R F B c i Ht Ha Hw HE HR Hc Hi HF HB. apply view_is in HR as [Hn ->]. assert (EL : Z.to_nat n = length X) by (unfold lenZ in Hn; lia). rewrite EL in *.
  assert (HE' : inside (Z.of_nat (length X)) E) by (unfold lenZ in Hn; rewrite Hn; exact HE).
  exact (R_contract tiny E (length X) d a X Ht Hw HE' Ha F c B (Z.to_nat steps) Hc HF HB i Hi).
Qed.
Print Assumptions C123_converges.
(* the value of a node depends only on the nodes reached along at most [steps] edges, one column at a time *)
Theorem C123_local : forall tiny n d E steps a X X' R R' c i,
  inside n E -> diffusion_view tiny true n d E steps a X = Ok R -> diffusion_view tiny true n d E steps a X' = Ok R' ->
  (c < d)%nat -> (i < Z.to_nat n)%nat -> (forall j, within_hops E (Z.to_nat steps) i j -> entry X j c == entry X' j c) -> entry R i c == entry R' i c.
Proof.
  intros tiny n d E steps a X X' R R' c i HE HR HR' Hc Hi HX. apply view_is in HR as [Hn ->]. apply view_is in HR' as [Hn' ->].
  assert (EL : length X' = length X) by (unfold lenZ in *; lia). rewrite EL. apply R_local; [unfold lenZ in Hn; rewrite Hn; exact HE|exact Hc|unfold lenZ in Hn; lia|exact HX].
Qed.
Print Assumptions C123_local.
(* with alpha = 1 or without steps the view is X *)
Theorem C123_unchanged : forall tiny n d E steps a X R, inside n E -> diffusion_view tiny true n d E steps a X = Ok R ->
  a == 1 \/ (steps <= 0)%Z -> agree (Z.to_nat n) d (entry R) (entry X).
Proof.
  intros tiny n d E steps a X R HE HR Hor i c Hi Hc. apply view_is in HR as [Hn ->]. destruct Hor as [Ha|Hs].
  - apply R_full; [unfold lenZ in Hn; rewrite Hn; exact HE|unfold lenZ in Hn; lia|exact Hc|exact Ha].
  - replace (Z.to_nat steps) with O by lia. reflexivity.
Qed.
Print Assumptions C123_unchanged.
(* a node without outgoing edges keeps only the alpha share of its features *)
Theorem C123_sink : forall tiny n d E steps a X R i c, inside n E -> diffusion_view tiny true n d E steps a X = Ok R ->
  (0 < steps)%Z -> (i < Z.to_nat n)%nat -> (c < d)%nat -> out_edges E i = [] -> entry R i c == a * entry X i c.
Proof.
  intros tiny n d E steps a X R i c HE HR Hs Hi Hc Ho. apply view_is in HR as [Hn ->].
  replace (Z.to_nat steps) with (S (Z.to_nat steps - 1)) by lia. apply R_sink; [unfold lenZ in Hn; rewrite Hn; exact HE|unfold lenZ in Hn; lia|exact Hc|exact Ho].
Qed.
Print Assumptions C123_sink.
(* so the transition matrix is not row-stochastic as documented: features constant over the nodes do not stay so *)
Theorem C123_isolated_refuted :
  ~ (forall tiny n d E steps a X R v, 0 < tiny -> 0 <= a <= 1 -> (forall e, In e E -> 0 < e_w e) -> inside n E ->
       diffusion_view tiny true n d E steps a X = Ok R -> (forall i c, (i < Z.to_nat n)%nat -> (c < d)%nat -> entry X i c == v) ->
       forall i c, (i < Z.to_nat n)%nat -> (c < d)%nat -> entry R i c == v).
Proof.
  intros H. set (E := [(0%Z, 1%Z, 1)]).
  assert (HR := H 1 2%Z 1%nat E 1%Z 0 [[1]; [1]] _ 1 ltac:(reflexivity) ltac:(split; discriminate) ltac:(intros e [<-|[]]; reflexivity) ltac:(intros e [<-|[]]; split; split; discriminate || reflexivity) eq_refl).
  assert (HX : forall i c, (i < Z.to_nat 2)%nat -> (c < 1)%nat -> entry [[1]; [1]] i c == 1) by (intros [|[|i]] [|c] Hi Hc; try (cbn in Hi; lia); reflexivity).
  specialize (HR HX 1%nat 0%nat ltac:(cbn; lia) ltac:(lia)). vm_compute in HR. discriminate HR.
Qed.
Print Assumptions C123_isolated_refuted.
(* without scipy the same view, as long as no edge occurs twice *)
Theorem C123_dense_same : forall tiny n d E steps a X R R', simple E ->
  diffusion_view tiny true n d E steps a X = Ok R -> diffusion_view tiny false n d E steps a X = Ok R' -> agree (Z.to_nat n) d (entry R) (entry R').
Proof.
  intros tiny n d E steps a X R R' HS HR HR'. unfold diffusion_view in *. destruct (negb (lenZ X =? n)%Z); [discriminate|]. cbn zeta in *.
  destruct (n >? 4096)%Z; [discriminate|]. injection HR as <-. injection HR' as <-. apply iter_ext. intros i j. symmetry. apply dense_csr, w_norm_simple. exact HS.
Qed.
Print Assumptions C123_dense_same.
(* parallel edges count once with numpy, twice with scipy *)
Theorem C123_dense_refuted :
  ~ (forall tiny n d E steps a X R R', 0 < tiny -> 0 <= a <= 1 -> (forall e, In e E -> 0 < e_w e) -> inside n E ->
       diffusion_view tiny true n d E steps a X = Ok R -> diffusion_view tiny false n d E steps a X = Ok R' -> agree (Z.to_nat n) d (entry R) (entry R')).
Proof.
  intros H. set (E := [(0%Z, 1%Z, 1); (0%Z, 1%Z, 1); (1%Z, 0%Z, 1)]).
  assert (C := H 1 2%Z 1%nat E 1%Z 0 [[1]; [1]] _ _ ltac:(reflexivity) ltac:(split; discriminate) ltac:(intros e [<-|[<-|[<-|[]]]]; reflexivity) ltac:(intros e [<-|[<-|[<-|[]]]]; split; split; discriminate || reflexivity) eq_refl eq_refl).
  specialize (C 0%nat 0%nat ltac:(cbn; lia) ltac:(lia)). vm_compute in C. discriminate C.
Qed.
Print Assumptions C123_dense_refuted.
(* a triangle-free path with an isolated end: hypotheses met, values of two steps *)
Example C123_case : let E := [(0%Z, 1%Z, 1); (1%Z, 0%Z, 1); (1%Z, 2%Z, 3)] in
  inside 3 E /\ simple E /\ (forall e, In e E -> 0 <= e_w e) /\ shape 3 1 [[4]; [0]; [8]] /\ out_edges E 2 = [] /\
  exists R, diffusion_view (1 # 1000) true 3 1 E 2 (1 # 2) [[4]; [0]; [8]] = Ok R /\ map (map Qred) R = [[15 # 4]; [7 # 4]; [4]].
Proof.
  intros E. split; [intros e [<-|[<-|[<-|[]]]]; cbn; lia|]. split; [unfold simple; repeat constructor; cbn; intuition discriminate|].
  split; [intros e [<-|[<-|[<-|[]]]]; discriminate|]. split; [split; [reflexivity|intros r [<-|[<-|[<-|[]]]]; reflexivity]|]. split; [reflexivity|].
  eexists. split; [reflexivity|]. vm_compute. reflexivity.
Qed.

(* ------------------------------------------------------------------ C124: structural embeddings *)
(* a view is returned for every graph when walks have a positive length or none is asked *)
Theorem C124_returns : forall rng fresh choice choice_p mix log svd truncated ei n sp seed,
  (exists R, struct_embeddings rng fresh choice choice_p mix log svd truncated ei n sp seed = Ok R) <->
  (n <= 0)%Z \/ (sp_num_walks sp <= 0)%Z \/ (0 < sp_walk_length sp)%Z.
Proof.
  intros rng fresh choice choice_p mix log svd truncated ei n sp seed. unfold struct_embeddings, random_walks. destruct (Z.leb_spec n 0) as [Hn|Hn].
  - split; [intros _; left; exact Hn|intros _; eexists; reflexivity].
  - destruct (Z.to_nat n) as [|m] eqn:En; [lia|]. destruct (Z.leb_spec (sp_num_walks sp) 0) as [Hw|Hw].
    + split; [intros _; right; left; exact Hw|intros _]. cbn [bind]. cbn zeta. destruct (n <=? sp_max_dense sp)%Z; [|eexists; reflexivity]. destruct (svd _). eexists; reflexivity.
    + destruct (Z.ltb_spec (sp_walk_length sp) 0) as [Hl|Hl]; [split; [intros [R HR]; discriminate HR|intros; lia]|].
      destruct (Z.eqb_spec (sp_walk_length sp) 0) as [Hl'|Hl']; [split; [intros [R HR]; discriminate HR|intros; lia]|].
      split; [intros _; right; right; lia|intros _]. cbn [bind]. cbn zeta. destruct (n <=? sp_max_dense sp)%Z; [|eexists; reflexivity]. destruct (svd _). eexists; reflexivity.
Qed.
Print Assumptions C124_returns.
(* What the embedding is.  There are walks over the graph, num_walks from every node, each of the asked
   length and following the edges; the matrix M of their positive pointwise mutual information is
   symmetric; a node shows in M only beside nodes that some start leads to as well; the coordinates of a
   node are its row of M seen along the leading right singular vectors, then zeros; and when there are at
   least as many coordinates as nodes they keep every inner product of rows of M. *)
Theorem C124_embedding : forall rng fresh (choice : rng -> list nat -> nat * rng) choice_p mix log svd truncated ei n sp seed R,
  choice_ok choice -> choice_p_ok choice_p -> 0 < sp_p sp -> 0 < sp_q sp -> (0 < n)%Z ->
  struct_embeddings rng fresh choice choice_p mix log svd truncated ei n sp seed = Ok R ->
  exists ws M,
    walks_from_all n ei (sp_num_walks sp) (sp_walk_length sp) ws /\
    (forall u v, (u < Z.to_nat n)%nat -> (v < Z.to_nat n)%nat ->
       positive_pmi log (sp_window sp) ws (Z.to_nat n) u v (entry M u v) /\ entry M u v == entry M v u /\ 0 <= entry M u v /\
       (~ entry M u v == 0 -> exists s, (s < Z.to_nat n)%nat /\ leads (move n ei) s u /\ leads (move n ei) s v)) /\
    ((sp_max_dense sp < n)%Z -> R = truncated (sp_dim sp) seed M) /\
    ((n <= sp_max_dense sp)%Z -> shape (Z.to_nat n) (Z.to_nat (sp_dim sp)) R /\
      forall V, svd_factors (Z.to_nat n) M (fst (svd M)) (snd (svd M)) V ->
        (forall u c, (u < Z.to_nat n)%nat -> (c < Z.to_nat (sp_dim sp))%nat ->
           entry R u c == if Nat.ltb c (Z.to_nat n) then inner (Z.to_nat n) (entry M u) (V c) else 0) /\
        ((n <= sp_dim sp)%Z -> forall u v, (u < Z.to_nat n)%nat -> (v < Z.to_nat n)%nat ->
           inner (Z.to_nat (sp_dim sp)) (entry R u) (entry R v) == inner (Z.to_nat n) (entry M u) (entry M v))).
Proof.
  intros rng fresh choice choice_p mix log svd truncated ei n sp seed R Hc Hcp Hp Hq Hn HR.
  unfold struct_embeddings in HR. destruct (Z.leb_spec n 0) as [Hn'|_]; [lia|]. cbn zeta in HR.
  destruct (random_walks rng fresh choice choice_p mix sp (nbrs n ei) (Z.to_nat n) seed) as [ws|e] eqn:EW; [|discriminate HR]. cbn [bind] in HR.
  set (m := Z.to_nat n) in *. set (M := ppmi log m (cooccurrence m (sp_window sp) ws)) in *.
  assert (HW := random_walks_spec rng fresh choice choice_p mix sp n ei seed Hc Hcp Hp Hq ws EW).
  assert (Hin : forall l x, In l ws -> In x l -> (x < m)%nat).
  { intros l x Hl Hx. destruct (walks_inside n ei _ _ ws HW l x Hl Hx) as (s & Hs & HL). assert (B := leads_inside n ei s x ltac:(lia) HL). unfold m. lia. }
  assert (HM : forall u v, (u < m)%nat -> (v < m)%nat -> positive_pmi log (sp_window sp) ws m u v (entry M u v)) by (intros; apply ppmi_entry; assumption).
  exists ws, M. split; [exact HW|]. split.
  - intros u v Hu Hv. split; [apply HM; assumption|]. assert (A := HM u v Hu Hv). assert (B := HM v u Hv Hu). unfold positive_pmi in A, B. rewrite (together_sym _ _ v u) in B.
    destruct (Z.eqb_spec (together (sp_window sp) ws u v) 0) as [E0|E0].
    + split; [rewrite A, B; reflexivity|]. split; [rewrite A; apply Qle_refl|]. intros C. contradiction.
    + split.
      * rewrite A, B. unfold M in *.
        assert (SW : inject_Z (together_with (sp_window sp) ws m u) * inject_Z (together_with (sp_window sp) ws m v) = inject_Z (together_with (sp_window sp) ws m v) * inject_Z (together_with (sp_window sp) ws m u)).
        { unfold inject_Z, Qmult. cbn [Qnum Qden]. rewrite Z.mul_comm. reflexivity. }
        rewrite SW. reflexivity.
      * split; [rewrite A; apply Q.le_max_l|]. intros _. destruct (together_walk _ _ _ _ E0) as (l & Hl & H1 & H2). exact (walk_linked n ei _ _ ws l u v HW Hl H1 H2).
  - split.
    + intros Hbig. destruct (Z.leb_spec n (sp_max_dense sp)) as [C|_]; [lia|]. injection HR as <-. reflexivity.
    + intros Hsmall. destruct (Z.leb_spec n (sp_max_dense sp)) as [_|C]; [|lia]. destruct (svd M) as [U s] eqn:ES. injection HR as <-. cbn [fst snd].
      split; [apply scaled_shape|]. intros V HV. pose proof HV as (Hls & _).
      assert (HE : forall u c, (u < m)%nat -> (c < Z.to_nat (sp_dim sp))%nat -> entry (scaled_columns m (sp_dim sp) U s) u c = if Nat.ltb c m then entry U u c * nth c s 0 else 0) by (intros; rewrite <- Hls; apply scaled_entry; [rewrite Hls|]; assumption || (rewrite Hls in *; assumption)).
      split.
      * intros u c Hu Hcc. rewrite (HE u c Hu Hcc). destruct (Nat.ltb_spec c m) as [Hcm|_]; [|reflexivity]. unfold inner. apply (svd_project m M U s V u c HV Hu Hcm).
      * intros Hdim u v Hu Hv. assert (Hmd : (m <= Z.to_nat (sp_dim sp))%nat) by (unfold m; lia). unfold inner.
        rewrite (sum_ext _ _ (fun c => (if Nat.ltb c m then entry U u c * nth c s 0 else 0) * (if Nat.ltb c m then entry U v c * nth c s 0 else 0))) by (intros c Hcc; rewrite (HE u c Hu Hcc), (HE v c Hv Hcc); reflexivity).
        rewrite (sum_pad m _ _ Hmd) by (intros c [Hc1 _]; destruct (Nat.ltb_spec c m); [lia|ring]).
        rewrite (sum_ext m _ (fun a => (entry U u a * nth a s 0) * (entry U v a * nth a s 0))) by (intros c Hcc; destruct (Nat.ltb_spec c m); [reflexivity|lia]).
        apply (svd_gram m M U s V u v HV Hu Hv).
Qed.
Print Assumptions C124_embedding.
(* how the next node of a walk is drawn: uniformly among the targets of the edges, one occurrence per edge;
   by node2vec, after the first move, with probabilities proportional to the bias of each target *)
Theorem C124_moves : forall rng (choice : rng -> list nat -> nat * rng) choice_p sp n ei todo g prev cur,
  0 < sp_p sp -> 0 < sp_q sp -> (exists v, arrow n ei cur v) ->
  exists ns b, (forall v, In v ns <-> arrow n ei cur v) /\
    walk_on rng choice choice_p sp (nbrs n ei) (S todo) g prev cur =
      (let next := match sp_method sp, prev with Node2Vec, Some _ => choice_p g ns (map (fun x => x / Qsum b) b) | _, _ => choice g ns end in
       fst next :: walk_on rng choice choice_p sp (nbrs n ei) todo (snd next) (Some cur) (fst next)) /\
    (forall u, prev = Some u -> length b = length ns /\ 0 < Qsum b /\ forall i, (i < length ns)%nat -> return_bias (sp_p sp) (sp_q sp) n ei u (nth i ns O) (nth i b 0)).
Proof.
  intros rng choice choice_p sp n ei todo g prev cur Hp Hq [v0 Hv0].
  exists (nbrs n ei cur), (match prev with Some u => map (bias sp (nbrs n ei) u) (nbrs n ei cur) | None => [] end). split; [intros v; apply nbrs_In|].
  assert (NE : nbrs n ei cur <> []) by (intros C; apply nbrs_In in Hv0; rewrite C in Hv0; destruct Hv0).
  assert (BP : forall u, 0 < Qsum (map (bias sp (nbrs n ei) u) (nbrs n ei cur))) by (intros u; apply Qsum_pos; [exact NE|intros; apply bias_pos; assumption]).
  split.
  - cbn [walk_on]. destruct (nbrs n ei cur) as [|x l] eqn:F; [contradiction|]. rewrite <- F in *. cbn zeta.
    destruct (sp_method sp); [destruct (choice g (nbrs n ei cur)); reflexivity|]. destruct prev as [u|]; [|destruct (choice g (nbrs n ei cur)); reflexivity].
    assert (C : Qle_bool (Qsum (map (bias sp (nbrs n ei) u) (nbrs n ei cur))) 0 = false). { apply not_true_iff_false. intros C. apply Qle_bool_iff in C. specialize (BP u). lra. }
    rewrite C. destruct (choice_p g (nbrs n ei cur) _). reflexivity.
  - intros u ->. split; [apply map_length|]. split; [apply BP|]. intros i Hi. rewrite (nth_map_in _ _ i O) by exact Hi. apply bias_spec; assumption.
Qed.
Print Assumptions C124_moves.
(* the walks and the embedding of a graph with two nodes *)
Definition toy_choice (g : unit) (l : list nat) : nat * unit := (hd O l, tt).
Fixpoint first_positive (l : list nat) (p : list Q) : nat :=
  match l, p with x :: l, q :: p => if Qle_bool q 0 then first_positive l p else x | _, _ => O end.
Definition toy_choice_p (g : unit) (l : list nat) (p : list Q) : nat * unit := (first_positive l p, tt).
Lemma first_positive_ok : forall l p, length p = length l -> 0 < Qsum p -> exists i, (i < length l)%nat /\ first_positive l p = nth i l O /\ 0 < nth i p 0.
Proof.
  induction l as [|x l IH]; intros [|q p] HL HS; try discriminate. cbn [first_positive]. rewrite Qsum_cons in HS.
  destruct (Qle_bool q 0) eqn:C.
  - apply Qle_bool_iff in C. destruct (IH p ltac:(cbn in HL; lia) ltac:(lra)) as (i & Hi & E1 & E2). exists (S i). cbn [List.length nth]. split; [lia|]. split; assumption.
  - exists O. cbn [List.length nth]. split; [lia|]. split; [reflexivity|]. apply Qnot_le_lt. intros C'. apply Qle_bool_iff in C'. congruence.
Qed.
Definition two_nodes : struct_params := {| sp_method := Node2Vec; sp_dim := 3; sp_walk_length := 3; sp_num_walks := 1; sp_window := 1; sp_p := 2; sp_q := 1; sp_max_dense := 2000 |}.
Example C124_case : choice_ok toy_choice /\ choice_p_ok toy_choice_p /\
  exists R, struct_embeddings unit (fun _ => tt) toy_choice toy_choice_p (fun a b => (a + b)%Z) (fun x => x - 1) (fun _ => ([[1; 0]; [0; 1]], [1; 1])) (fun _ _ M => M) [(0, 1); (1, 0)]%Z 2 two_nodes 7 = Ok R /\
    map (map Qred) R = [[1; 0; 0]; [0; 1; 0]] /\
    map (map Qred) (ppmi (fun x => x - 1) 2 (cooccurrence 2 1 [[0; 1; 0]; [1; 0; 1]]%nat)) = [[0; 1]; [1; 0]] /\
    svd_factors 2 [[0; 1]; [1; 0]] [[1; 0]; [0; 1]] [1; 1] (fun a j => if Nat.eqb a j then 0 else 1).
Proof.
  split; [intros g [|x l] H; [contradiction|left; reflexivity]|]. split.
  - intros g l p HL _ HS. apply first_positive_ok; [exact HL|]. rewrite HS. reflexivity.
  - eexists. split; [reflexivity|]. split; [vm_compute; reflexivity|]. split; [vm_compute; reflexivity|].
    split; [reflexivity|]. split; [intros [|[|a]] [|[|b]] Ha Hb; try lia; reflexivity|]. split; [intros [|[|a]] [|[|b]] Ha Hb; try lia; reflexivity|].
    split; [intros [|[|a]] [|[|b]] Ha Hb; try lia; cbn; lra|]. intros [|[|i]] [|[|j]] Hi Hj; try lia; reflexivity.
Qed.
