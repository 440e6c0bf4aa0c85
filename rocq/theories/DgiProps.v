(* C161: the graph.dgi step. *)
From Coq Require Import QArith Qminmax Lqa Lia ZifyBool ZifyNat.
From Verif Require Import Prelude ListFacts QFacts BundleProofs TransModel TransSpec TransProofs TransSolveProofs GnnModel GnnSpec GnnProofs PcaModel DgiModel DgiSpec DgiProofs.
Local Open Scope Z_scope.
Local Open Scope list_scope.
Local Notation length := List.length.

Section Props.
Variable rsqrt : Q -> Q.
Variable tiny : Q.
Context {W N G R : Type}.
Variables lin1 lin2 : W -> list Q -> list Q.
Variable init : nat -> nat -> nat -> G -> W * G.
Variable seeded : Z -> G.
Variable choices : nat -> nat -> config -> G -> N * G.
Variable update : mat -> list edge -> N -> W -> W.
Variable integers : R -> Z * R.
Notation transform := (transform rsqrt tiny W N G R lin1 lin2 init seeded choices update integers).

(* The step works exactly on graphs with a table of features, edges inside it in either layout, one weight per edge (or none) and
   a sensible configuration.  Otherwise it raises a PreprocessValidationError and no generator has been touched. *)
Theorem C161_checks c s r g : (forall e, s_edges s = Some e -> well_formed e) ->
  ((exists emb, fst (fst (transform c s r g)) = Ok emb) <-> good_config c /\ exists d X E, holds s d X E) /\
  (~ (good_config c /\ exists d X E, holds s d X E) -> transform c s r g = (Err PreprocessError, r, g)).
Proof.
  intros Wf; unfold DgiModel.transform; destruct (checked c s) as [((d, X), E)|e] eqn:Ec.
  - pose proof Ec as Hc; apply (checked_ok _ _ _ _ _ Wf) in Hc; destruct Hc as (Hc & Hh); split.
    + split; [intros _; split; [exact Hc|exists d, X, E; exact Hh]|intros _]; destruct (integers r) as (seed, r'); destruct (train_dgi _ _ _ _ _ _ _ _ _ _ _ _ _ _ _ _ _); eexists; reflexivity.
    + intros H; destruct H; split; [exact Hc|exists d, X, E; exact Hh].
  - assert (No : ~ (good_config c /\ exists d X E, holds s d X E)) by (intros (Hc & d & X & E & Hh); assert (T : checked c s = Ok (d, X, E)) by (apply checked_ok; [exact Wf|split; assumption]); congruence).
    split; [split; [intros (emb & H); discriminate|intros H; destruct (No H)]|intros _]; rewrite (checked_err _ _ _ Ec); reflexivity.
Qed.

Lemma epochs_chosen c d X E k : forall w g, exists ns g', chosen (choices (length X) d c) k g ns g' /\ epochs W N G choices update k c d X E w g = (fold_left (fun w n => update X E n w) ns w, g').
Proof.
  induction k as [|k IH]; intros w g; [exists [], g; split; [constructor|reflexivity]|]; cbn [epochs]; destruct (choices (length X) d c g) as (x, g1) eqn:E1.
  destruct (IH (update X E x w) g1) as (ns & g' & Hc & ->); exists (x :: ns), g'; split; [econstructor; eassumption|reflexivity].
Qed.

(* The result: one row per node, of embedding_dim numbers.  It is a two-layer graph convolution, over the links made symmetric by
   the square roots of the degrees (with a loop of weight one added to every node if asked for), with weights drawn from the torch
   generator as it was and then updated once per epoch; the choices of the epochs come from the generator seeded by the step. *)
Theorem C161_embedding c s d X E r g : (forall e, s_edges s = Some e -> well_formed e) -> same_value rsqrt -> X <> [] -> good_config c -> holds s d X E ->
  exists emb ns g' H Eu, transform c s r g = (Ok emb, snd (integers r), g') /\ shape (length X) (Z.to_nat (c_emb c)) emb /\
    chosen (choices (length X) d c) (Z.to_nat (c_epochs c)) (seeded (fst (integers r))) ns g' /\
    let w := fold_left (fun w n => update X Eu n w) ns (fst (init d (Z.to_nat (c_hid c)) (Z.to_nat (c_emb c)) g)) in
    let P := takes rsqrt tiny NormSym (c_loops c) (length X) E in
    shape (length X) (Z.to_nat (c_hid c)) H /\
    (forall i k, (i < length X)%nat -> (k < Z.to_nat (c_hid c))%nat -> (entry H i k == Qmax (Qsum (map (fun j => P i j * nth k (lin1 w (nth j X [])) 0) (seq 0 (length X)))) 0)%Q) /\
    (forall i k, (i < length X)%nat -> (k < Z.to_nat (c_emb c))%nat -> (entry emb i k == Qsum (map (fun j => P i j * nth k (lin2 w (nth j H [])) 0) (seq 0 (length X))))%Q) /\
    (forall i j, (i < length X)%nat -> (j < length X)%nat -> (weight_from Eu i j == P i j)%Q).
Proof.
  intros Wf Sv Nx Hc Hh; pose proof (holds_range _ _ _ _ Hh) as HR; unfold DgiModel.transform; rewrite (proj2 (checked_ok c s d X E Wf) (conj Hc Hh)).
  destruct (integers r) as (seed, r'); unfold train_dgi; rewrite with_loops_eq; set (n := length X); set (Eu := edge_normalise rsqrt tiny NormSym (with_loops (c_loops c) (Z.of_nat n) E)).
  destruct (init d (Z.to_nat (c_hid c)) (Z.to_nat (c_emb c)) g) as (w0, g0) eqn:Ei.
  destruct (epochs_chosen c d X Eu (Z.to_nat (c_epochs c)) w0 (seeded seed)) as (ns & g' & Hch & ->); set (w := fold_left _ ns w0).
  assert (Np : (0 < Z.of_nat n)%Z) by (destruct X; [destruct (Nx eq_refl)|unfold n; cbn [length]; lia]).
  assert (Op : forall k F i q, (i < n)%nat -> (q < k)%nat -> (entry (spmm Eu n k F) i q == Qsum (map (fun j => takes rsqrt tiny NormSym (c_loops c) n E i j * entry F j q) (seq 0 n)))%Q).
  { intros k F i q Hi Hq; pose proof (spmm_takes rsqrt tiny NormSym (c_loops c) (Z.of_nat n) E k F i q (fun _ => Sv) Np) as T; rewrite Nat2Z.id in T; exact (T HR Hi Hq). }
  set (H := map (map relu) (gcn_conv (lin1 w) n (Z.to_nat (c_hid c)) Eu X)).
  assert (En : forall F (l : list Q -> list Q) j q, (j < length F)%nat -> entry (map l F) j q = nth q (l (nth j F [])) 0%Q) by (intros F l j q Hj; unfold entry; rewrite (nth_map_in l F j []) by exact Hj; reflexivity).
  assert (Sh : shape n (Z.to_nat (c_hid c)) (gcn_conv (lin1 w) n (Z.to_nat (c_hid c)) Eu X)) by apply spmm_shape.
  assert (LH : length H = n) by (unfold H; rewrite map_length; apply Sh).
  exists (gcn (lin1 w) (lin2 w) n (Z.to_nat (c_hid c)) (Z.to_nat (c_emb c)) Eu X), ns, g', H, Eu; split; [reflexivity|split; [apply spmm_shape|split; [exact Hch|]]]; cbn [fst]; cbv zeta.
  split; [|split; [|split]].
  - split; [exact LH|]; intros row Hrow; unfold H in Hrow; apply in_map_iff in Hrow; destruct Hrow as (r0 & <- & Hr0); rewrite map_length; apply Sh; exact Hr0.
  - intros i k Hi Hk; unfold H; assert (Er : entry (map (map relu) (gcn_conv (lin1 w) n (Z.to_nat (c_hid c)) Eu X)) i k = relu (entry (gcn_conv (lin1 w) n (Z.to_nat (c_hid c)) Eu X) i k)).
    { destruct Sh as (Sl & Sr); unfold entry; rewrite (nth_map_in (map relu) _ i []) by (rewrite Sl; exact Hi); apply (nth_map_in relu _ k 0%Q); rewrite Sr by (apply nth_In; rewrite Sl; exact Hi); exact Hk. }
    rewrite Er; unfold relu, gcn_conv; rewrite Op by assumption; apply Qmax_same, Qsum_ext; intros j Hj; apply in_seq in Hj; rewrite En by (fold n; lia); reflexivity.
  - intros i k Hi Hk; unfold gcn; fold H; unfold gcn_conv; rewrite Op by assumption; apply Qsum_ext; intros j Hj; apply in_seq in Hj; rewrite En by (rewrite LH; lia); reflexivity.
  - intros i j Hi Hj; pose proof (Op 1%nat (map (fun a => [if Nat.eqb a j then 1 else 0]%Q) (seq 0 n)) i 0%nat Hi ltac:(lia)) as T.
    assert (D : forall a, (a < n)%nat -> entry (map (fun a => [if Nat.eqb a j then 1 else 0]%Q) (seq 0 n)) a 0 = (if Nat.eqb a j then 1 else 0)%Q).
    { intros a Ha; unfold entry; rewrite (nth_map_in _ _ a 0%nat) by (rewrite seq_length; exact Ha); rewrite seq_nth by exact Ha; reflexivity. }
    assert (HEu : in_range n Eu).
    { unfold Eu; intros e He; unfold edge_normalise in He; apply in_map_iff in He; destruct He as (e0 & <- & He0); assert (HL : in_range (Z.to_nat (Z.of_nat n)) (with_loops (c_loops c) (Z.of_nat n) E)) by (apply with_loops_range; [exact Np|rewrite Nat2Z.id; exact HR]); rewrite Nat2Z.id in HL; exact (HL e0 He0). }
    assert (L1 : (entry (spmm Eu n 1 (map (fun a => [if Nat.eqb a j then 1 else 0]%Q) (seq 0 n))) i 0 == weight_from Eu i j)%Q).
    { rewrite spmm_entry by lia; unfold arriving, weight_from; clear - D HEu; induction Eu as [|e l IH]; [reflexivity|]; assert (HL : in_range n l) by (intros x Hx; apply HEu; right; exact Hx); specialize (IH HL).
      destruct (HEu e (or_introl eq_refl)) as (Hs & Hd); cbn [filter]; destruct (Z.eqb_spec (e_dst e) (Z.of_nat i)) as [Ed|Ed]; cbn [andb map]; rewrite ?Qsum_cons.
      - rewrite D by lia; destruct (Nat.eqb_spec (Z.to_nat (e_src e)) j) as [Ej|Ej]; destruct (Z.eqb_spec (e_src e) (Z.of_nat j)) as [Ej'|Ej']; try lia; cbn [map]; rewrite ?Qsum_cons, IH; ring.
      - rewrite ?andb_false_r; cbn [map]; exact IH. }
    rewrite <- L1, T; transitivity (Qsum (map (fun a => (if Nat.eqb a j then 1 else 0) * takes rsqrt tiny NormSym (c_loops c) n E i a) (seq 0 n)))%Q; [apply Qsum_ext; intros a Ha; apply in_seq in Ha; rewrite D by lia; ring|].
    apply (sum_pick (fun a => takes rsqrt tiny NormSym (c_loops c) n E i a)); [apply seq_NoDup|apply in_seq; lia].
Qed.
End Props.

(* Without added loops a node no edge points to gets the zero embedding, whatever the features, the weights and the training. *)
Theorem C161_isolated rsqrt tiny W N G R lin1 lin2 init seeded choices update integers c s d X E r g emb i k :
  (forall e, s_edges s = Some e -> well_formed e) -> same_value rsqrt -> good_config c -> holds s d X E -> c_loops c = false ->
  fst (fst (transform rsqrt tiny W N G R lin1 lin2 init seeded choices update integers c s r g)) = Ok emb ->
  (i < length X)%nat -> (forall e, In e E -> e_dst e <> Z.of_nat i) -> (k < Z.to_nat (c_emb c))%nat -> (entry emb i k == 0)%Q.
Proof.
  intros Wf Sv Hc Hh Hl Ht Hi Ho Hk; assert (Nx : X <> []) by (intros ->; cbn in Hi; lia).
  destruct (C161_embedding rsqrt tiny lin1 lin2 init seeded choices update integers c s d X E r g Wf Sv Nx Hc Hh) as (emb' & ns & g' & H & Eu & T & _ & _ & _ & _ & He & _).
  rewrite T in Ht; injection Ht as <-; rewrite He by assumption; apply Qsum_zero; intros j _.
  assert (Z0 : (weight_from E i j == 0)%Q).
  { unfold weight_from; assert (F : filter (fun e => (e_dst e =? Z.of_nat i)%Z && (e_src e =? Z.of_nat j)%Z) E = []); [|rewrite F; reflexivity].
    clear - Ho; induction E as [|e E IH]; [reflexivity|]; cbn [filter]; destruct (Z.eqb_spec (e_dst e) (Z.of_nat i)) as [Ed|Ed]; [destruct (Ho e (or_introl eq_refl) Ed)|cbn [andb]; apply IH; intros x Hx; apply Ho; right; exact Hx]. }
  rewrite Hl; unfold takes, strength; cbn [andb]; rewrite Z0; ring.
Qed.

(* Finding: the step seeds the global torch generator: whatever draws from it later no longer depends on what it was before. *)
Theorem C161_global_refuted rsqrt tiny W N G R lin1 lin2 init seeded (choices : nat -> nat -> config -> G -> N * G) update integers c s d X E r g g2 :
  (forall e, s_edges s = Some e -> well_formed e) -> good_config c -> holds s d X E ->
  snd (transform rsqrt tiny W N G R lin1 lin2 init seeded choices update integers c s r g) = snd (transform rsqrt tiny W N G R lin1 lin2 init seeded choices update integers c s r g2).
Proof.
  intros Wf Hc Hh; unfold transform; rewrite (proj2 (checked_ok c s d X E Wf) (conj Hc Hh)); destruct (integers r) as (seed, r'); unfold train_dgi.
  set (Eu := edge_normalise _ _ _ _); destruct (init _ _ _ g) as (w1, h1); destruct (init _ _ _ g2) as (w2, h2).
  destruct (epochs_chosen choices update c d X Eu (Z.to_nat (c_epochs c)) w1 (seeded seed)) as (n1 & k1 & C1 & ->).
  destruct (epochs_chosen choices update c d X Eu (Z.to_nat (c_epochs c)) w2 (seeded seed)) as (n2 & k2 & C2 & ->); cbn [snd].
  exact (proj2 (chosen_same _ _ _ _ _ C1 _ _ C2)).
Qed.

(* ---- examples: two nodes, an edge in each direction and one feature; weights are one number *)
Definition dx_c : config := {| c_emb := 1; c_hid := 1; c_dropout := 0; c_epochs := 2; c_lr := 1 # 100; c_loops := true |}.
Definition dx_s : store := {| s_edges := Some (E2 [[0; 1]; [1; 0]] 2); s_features := Some (X2 1 [[1%Q]; [2%Q]]); s_raw := None; s_weight := None |}.
Definition dx_E : list edge := [(0, 1, 1%Q); (1, 0, 1%Q)].
Definition dx_lin (w : Q) (x : list Q) : list Q := map (fun v => w * v)%Q x.
Definition dx_init (_ _ _ : nat) (g : Z) : Q * Z := (inject_Z g, g + 1).
Definition dx_choices (_ _ : nat) (_ : config) (g : Z) : Z * Z := (g, g + 1).
Definition dx_update (_ : mat) (_ : list edge) (x : Z) (w : Q) : Q := (w + inject_Z x)%Q.
Definition dx_integers (r : Z) : Z * Z := (r * 7, r + 1).
Definition dx_run := transform (fun _ => 1%Q) (1 # 1000000000000) Q Z Z Z dx_lin dx_lin dx_init (fun s => s) dx_choices dx_update dx_integers.
Example dx_good : good_config dx_c. Proof. repeat split; reflexivity || (intros ?; discriminate). Qed.
Example dx_wf : forall e, s_edges dx_s = Some e -> well_formed e. Proof. intros e [= <-] r [<-|[<-|[]]]; reflexivity. Qed.
Example dx_holds : holds dx_s 1 [[1%Q]; [2%Q]] dx_E.
Proof.
  exists (X2 1 [[1%Q]; [2%Q]]), (E2 [[0; 1]; [1; 0]] 2), [(0, 1); (1, 0)], [1%Q; 1%Q].
  split; [left; reflexivity|split; [right; reflexivity|split; [reflexivity|split; [left; exists [0; 1], [1; 0], 2%nat; repeat split|split; [|split; [reflexivity|split; [right; split; [reflexivity|]|reflexivity]]]]]]].
  - intros u v [[= <- <-]|[[= <- <-]|[]]]; cbn; lia.
  - intros q [<-|[<-|[]]]; reflexivity.
Qed.
(* the layout with one row per edge lists the same edges *)
Example dx_rows : lists (E2 [[0; 1]; [1; 0]; [1; 1]] 2) [(0, 1); (1, 0); (1, 1)].
Proof. right; exists [[0; 1]; [1; 0]; [1; 1]]; repeat split; [discriminate|intros r [<-|[<-|[<-|[]]]]; reflexivity]. Qed.
Example dx_sv : same_value (fun _ => 1%Q). Proof. intros x y _; reflexivity. Qed.
Example dx_bad_edges : dx_run dx_c {| s_edges := Some (E2 [[0; 1]; [1; 2]] 2); s_features := s_features dx_s; s_raw := None; s_weight := None |} 1 5 = (Err PreprocessError, 1, 5).
Proof. reflexivity. Qed.
(* a graph whose node 0 has no incoming edge *)
Example dx_alone : exists emb, fst (fst (dx_run {| c_emb := 1; c_hid := 1; c_dropout := 0; c_epochs := 2; c_lr := 1 # 100; c_loops := false |}
  {| s_edges := Some (E2 [[0; 1]; [1; 1]] 2); s_features := s_features dx_s; s_raw := None; s_weight := None |} 1 5)) = Ok emb /\ (entry emb 0 0 == 0)%Q /\ ~ (entry emb 1 0 == 0)%Q.
Proof. eexists; split; [vm_compute; reflexivity|split; [reflexivity|discriminate]]. Qed.

(* Finding: the seed of the step does not fix its result: the weights are drawn before the generator is seeded.  Same configuration,
   data and generator of the step, other state of the torch generator: other embeddings. *)
Theorem C161_seed_refuted : exists (c : config) (s : store) (r g g2 : Z) emb emb2, good_config c /\ (exists d X E, holds s d X E) /\
  fst (fst (dx_run c s r g)) = Ok emb /\ fst (fst (dx_run c s r g2)) = Ok emb2 /\ ~ (entry emb 0 0 == entry emb2 0 0)%Q.
Proof.
  exists dx_c, dx_s, 1, 5, 6; do 2 eexists; split; [exact dx_good|split; [exists 1%nat, [[1%Q]; [2%Q]], dx_E; exact dx_holds|split; [vm_compute; reflexivity|split; [vm_compute; reflexivity|vm_compute; discriminate]]]].
Qed.

Print Assumptions C161_checks.
Print Assumptions C161_embedding.
Print Assumptions C161_isolated.
Print Assumptions C161_global_refuted.
Print Assumptions C161_seed_refuted.
