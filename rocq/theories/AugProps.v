(* C34, C35, C66: data augmentation. *)
From Coq Require Import List ZArith Lia Bool QArith Permutation Lqa String ZifyBool ZifyNat.
From Verif Require Import Prelude ListFacts SamplingSpec SampleServiceProofs EnsembleModel S4vmProofs SeedModel SupervisedSpec AugModel AugSpec AugTextProofs AugArrayProofs.
Import ListNotations.
Open Scope Z_scope.
Local Notation length := List.length.

(* a generator that meets the contract: it always draws 1/2, the lower bound, and the first two *)
Definition ex_G : generator :=
  {| g_state := nat; g_seed := fun _ => 0%nat; g_unit := fun s => (Qmake 1 2, Datatypes.S s);
     g_units := fun n s => (map (fun i => if Nat.even i then Qmake 1 4 else Qmake 3 4) (seq s n), (s + n)%nat);
     g_int := fun lo _ s => (lo, Datatypes.S s); g_int2 := fun n s => ((0, n - 1), Datatypes.S s);
     g_two := fun v s => ((nth 0 v 0%nat, nth 1 v 0%nat), Datatypes.S s);
     g_normals := fun n s => (repeat 2%Q n, Datatypes.S s) |}.
Example ex_G_ok : draws_ok ex_G.
Proof.
  unfold draws_ok. cbn. split; [intros; lra|]. split.
  - intros n s. split; [now rewrite map_length, seq_length|]. intros u Hu. apply in_map_iff in Hu. destruct Hu as (i & <- & _). destruct (Nat.even i); lra.
  - split; [intros; lia|]. split; [intros; lia|]. split.
    + intros [|a [|b v]] s H; cbn in *; auto; lia.
    + intros n s. apply repeat_length.
Qed.
Definition ex_T : torch_rng := {| t_state := Q; t_rand := fun n w => (repeat (Qmake 1 4) n, w); t_randn := fun n w => (repeat w n, (w + 1)%Q); t_seeded := fun z n => repeat (inject_Z z) n |}.
Definition ex_space (c : Z) : bool := (c =? 32) || (c =? 9) || (c =? 10).

(* ----- C34: text ----- *)

Theorem C34_word_dropout is_space G T lower p items s0 w0 :
  is_space 32 = true -> draws_ok G -> (0 <= p)%Q -> (p <= 1)%Q ->
  exists out s1, apply_op is_space G T lower (OWordDropout p) (DText items) s0 w0 = Ok (DText out, s1, w0) /\
    Forall2 (fun x y => forall ws, words is_space x ws -> exists ws', words is_space y ws' /\ subsequence ws' ws /\
      (ws <> [] -> ws' <> []) /\ (ws = [] -> y = x) /\ ((p == 0)%Q -> ws' = ws) /\ ((p == 1)%Q -> ws <> [] -> length ws' = 1%nat)) items out.
Proof.
  intros Sp ok P0 P1. cbn [apply_op on_text].
  destruct (per_item_spec G (word_dropout is_space G p) (fun x y => forall ws, words is_space x ws -> exists ws', words is_space y ws' /\ subsequence ws' ws /\
      (ws <> [] -> ws' <> []) /\ (ws = [] -> y = x) /\ ((p == 0)%Q -> ws' = ws) /\ ((p == 1)%Q -> ws <> [] -> length ws' = 1%nat)) items s0) as (ys & s1 & E & F).
  - intros x s _. destruct (word_dropout_spec is_space Sp G ok p s x (split is_space x) P0 P1 (split_words is_space x)) as (y & s1 & ws' & E & R).
    exists y, s1. split; [exact E|]. intros ws W. rewrite <- (words_split is_space x ws W). exists ws'. exact R.
  - rewrite E. cbn [bind]. exists ys, s1. auto.
Qed.

Theorem C34_random_swap is_space G T lower n items s0 w0 :
  is_space 32 = true -> draws_ok G ->
  exists out s1, apply_op is_space G T lower (ORandomSwap n) (DText items) s0 w0 = Ok (DText out, s1, w0) /\
    Forall2 (fun x y => forall ws, words is_space x ws -> exists ws', words is_space y ws' /\ Permutation ws ws' /\
      ((length ws < 2)%nat -> y = x) /\ (n <= 0 -> ws' = ws)) items out.
Proof.
  intros Sp ok. cbn [apply_op on_text].
  destruct (per_item_spec G (random_swap is_space G n) (fun x y => forall ws, words is_space x ws -> exists ws', words is_space y ws' /\ Permutation ws ws' /\
      ((length ws < 2)%nat -> y = x) /\ (n <= 0 -> ws' = ws)) items s0) as (ys & s1 & E & F).
  - intros x s _. destruct (random_swap_spec is_space Sp G ok n s x (split is_space x) (split_words is_space x)) as (y & s1 & ws' & E & R).
    exists y, s1. split; [exact E|]. intros ws W. rewrite <- (words_split is_space x ws W). exists ws'. exact R.
  - rewrite E. cbn [bind]. exists ys, s1. auto.
Qed.

(* every text has exactly one list of words *)
Theorem C34_words_unique is_space x : exists ws, words is_space x ws /\ forall ws', words is_space x ws' -> ws' = ws.
Proof.
  exists (split is_space x). split; [apply split_words|]. intros ws' H. symmetry. now apply words_split.
Qed.

(* " ab  c" and "" *)
Example C34_text_example : words ex_space [32; 97; 98; 32; 32; 99] [[97; 98]; [99]] /\
  apply_op ex_space ex_G ex_T (fun x => x) (OWordDropout (3#4)) (DText [[32; 97; 98; 32; 32; 99]; []]) 0%nat 0%Q = Ok (DText [[97; 98]; []], 3%nat, 0%Q) /\
  apply_op ex_space ex_G ex_T (fun x => x) (ORandomSwap 1) (DText [[32; 97; 98; 32; 32; 99]]) 0%nat 0%Q = Ok (DText [[99; 32; 97; 98]], 1%nat, 0%Q).
Proof. split; [apply (split_words ex_space [32; 97; 98; 32; 32; 99])|]. split; vm_compute; reflexivity. Qed.

(* ----- C34: tokens ----- *)

(* every row is permuted and padding stays where it is *)
Theorem C34_token_swap is_space G T lower n pad b t s0 w0 : draws_ok G -> (forall l, t <> T3 l) ->
  exists t' s1, apply_op is_space G T lower (OTokenSwap n pad) (DArr b t) s0 w0 = Ok (DArr b t', s1, w0) /\ same_shape t t' /\
    Forall2 (fun l l' => Permutation l l' /\ forall i, (i < length l)%nat -> (nth i l 0 == pad)%Q -> nth i l' 0%Q = nth i l 0%Q) (rows_of t) (rows_of t').
Proof.
  intros ok N3. cbn [apply_op on_arr]. unfold token_swap. destruct (Z.leb_spec n 0) as [L|L].
  - exists t, s0. cbn [bind]. split; [reflexivity|]. split; [destruct t; reflexivity|]. induction (rows_of t); constructor; auto.
  - destruct t as [l|l|l]; [| |exfalso; now apply (N3 l)].
    + pose proof (swap_row_spec G ok n pad l s0) as H. destruct (swap_row G n pad l s0) as [l' s1]. cbn [fst bind] in *. exists (T1 l'), s1. split; [reflexivity|].
      split; [cbn; apply Permutation_length, H|]. constructor; [exact H|constructor].
    + pose proof (swap_rows_spec G ok n pad l s0) as H. destruct (swap_rows G n pad l s0) as [l' s1]. cbn [fst bind] in *. exists (T2 l'), s1. split; [reflexivity|].
      split; [|exact H]. cbn. clear - H. induction H as [|r r' l l' [P _] F IH]; cbn; [reflexivity|]. f_equal; [now apply Permutation_length|exact IH].
Qed.

Theorem C34_token_mask is_space G T lower p mask pad b t s0 w0 : draws_ok G -> (0 <= p)%Q -> (p <= 1)%Q ->
  exists t' s1 us, apply_op is_space G T lower (OTokenMask p mask pad) (DArr b t) s0 w0 = Ok (DArr b t', s1, w0) /\ same_shape t t' /\
    length us = size t /\ (forall u, In u us -> 0 <= u /\ u < 1)%Q /\
    forall i, (i < size t)%nat -> nth i (flat t') 0%Q =
      if Qlt_le_dec (nth i us 0%Q) p then if Qeq_dec (nth i (flat t) 0%Q) pad then nth i (flat t) 0%Q else mask else nth i (flat t) 0%Q.
Proof.
  intros ok P0 P1. cbn [apply_op on_arr]. unfold token_mask. rewrite (in01_ok p P0 P1). destruct (Qeq_bool p 0) eqn:E.
  - apply Qeq_bool_iff in E. exists t, s0, (repeat 0%Q (size t)). cbn [bind]. split; [reflexivity|]. split; [destruct t; reflexivity|]. split; [apply repeat_length|].
    split; [intros u Hu; apply repeat_spec in Hu; subst; lra|]. intros i Hi. rewrite nth_repeat. destruct (Qlt_le_dec 0 p); [lra|reflexivity].
  - destruct ok as (_ & U & _). destruct (U (size t) s0) as [L R]. destruct (g_units G (size t) s0) as [us s1]. cbn [fst bind] in *.
    destruct (entrywise (fun x u => if Qlt_bool u p && negb (Qeq_bool x pad) then mask else x) t us 0%Q L) as [S N].
    eexists. exists s1, us. split; [reflexivity|]. split; [exact S|]. split; [exact L|]. split; [exact R|]. intros i Hi. rewrite (N i Hi).
    destruct (Qlt_le_dec (nth i us 0%Q) p) as [D|D]; destruct (Qlt_bool (nth i us 0%Q) p) eqn:B; cbn [andb]; try reflexivity.
    + destruct (Qeq_dec (nth i (flat t) 0%Q) pad) as [D'|D']; destruct (Qeq_bool (nth i (flat t) 0%Q) pad) eqn:B'; cbn [negb]; try reflexivity.
      * apply Qeq_bool_false in B'. contradiction.
      * apply Qeq_bool_iff in B'. contradiction.
    + apply Qlt_bool_false in B. lra.
    + apply Qlt_bool_iff in B. lra.
Qed.

Example C34_token_example :
  apply_op ex_space ex_G ex_T (fun x => x) (OTokenSwap 1 0%Q) (DArr Numpy (T2 [[5; 0; 6; 7]; [8; 0; 0; 0]]%Q)) 0%nat 0%Q =
    Ok (DArr Numpy (T2 [[6; 0; 5; 7]; [8; 0; 0; 0]]%Q), 1%nat, 0%Q) /\
  apply_op ex_space ex_G ex_T (fun x => x) (OTokenMask (1#2) 1%Q 0%Q) (DArr Numpy (T1 [0; 5; 6; 7]%Q)) 0%nat 0%Q = Ok (DArr Numpy (T1 [0; 5; 1; 7]%Q), 4%nat, 0%Q).
Proof. split; vm_compute; reflexivity. Qed.

(* ----- C34: features ----- *)

(* an entry is zeroed exactly when its draw is below p; the graph's edges and weights are untouched *)
Theorem C34_feature_dropout is_space G T lower p b t s0 w0 : draws_ok G -> (0 <= p)%Q -> (p <= 1)%Q ->
  exists t' s1 us, apply_op is_space G T lower (OFeatureDropout p) (DArr b t) s0 w0 = Ok (DArr b t', s1, w0) /\
    (forall e w, apply_op is_space G T lower (OFeatureMask p) (DGraph b {| gr_x := t; gr_edges := e; gr_weight := w |}) s0 w0 =
       Ok (DGraph b {| gr_x := t'; gr_edges := e; gr_weight := w |}, s1, w0)) /\
    same_shape t t' /\ length us = size t /\ (forall u, In u us -> 0 <= u /\ u < 1)%Q /\
    forall i, (i < size t)%nat -> nth i (flat t') 0%Q = if Qlt_le_dec (nth i us 0%Q) p then 0%Q else nth i (flat t) 0%Q.
Proof.
  intros ok P0 P1. cbn [apply_op on_arr]. unfold feature_dropout. cbn [gr_x gr_edges gr_weight]. rewrite (in01_ok p P0 P1). destruct (Qeq_bool p 0) eqn:E.
  - apply Qeq_bool_iff in E. exists t, s0, (repeat 0%Q (size t)). cbn [bind]. split; [reflexivity|]. split; [reflexivity|]. split; [destruct t; reflexivity|]. split; [apply repeat_length|].
    split; [intros u Hu; apply repeat_spec in Hu; subst; lra|]. intros i Hi. rewrite nth_repeat. destruct (Qlt_le_dec 0 p); [lra|reflexivity].
  - destruct ok as (_ & U & _). destruct (U (size t) s0) as [L R]. destruct (g_units G (size t) s0) as [us s1]. cbn [fst bind] in *.
    destruct (entrywise (fun x u => if Qle_bool p u then x else 0%Q) t us 0%Q L) as [S N].
    eexists. exists s1, us. split; [reflexivity|]. split; [reflexivity|]. split; [exact S|]. split; [exact L|]. split; [exact R|]. intros i Hi. rewrite (N i Hi).
    destruct (Qlt_le_dec (nth i us 0%Q) p) as [D|D]; destruct (Qle_bool p (nth i us 0%Q)) eqn:B; try reflexivity.
    + apply Qle_bool_iff in B. lra.
    + apply Qle_bool_false in B. lra.
Qed.

(* Gaussian noise: every entry is moved by std times its own standard normal draw; a negative std is refused *)
Theorem C34_gaussian_noise is_space G T lower std b t s0 w0 : draws_ok G -> (forall z n, length (t_seeded T z n) = n) -> (0 <= std)%Q ->
  let noise := match b with Numpy => fst (g_normals G (size t) s0) | Torch => t_seeded T (fst (g_int G 0 (2 ^ 31) s0)) (size t) end in
  length noise = size t /\
  exists t' s1, apply_op is_space G T lower (OGaussian std) (DArr b t) s0 w0 = Ok (DArr b t', s1, w0) /\ same_shape t t' /\
    forall i, (i < size t)%nat -> (nth i (flat t') 0 == nth i (flat t) 0 + std * nth i noise 0)%Q.
Proof.
  intros (_ & _ & _ & _ & _ & Nn) TS P noise.
  assert (Ln : length noise = size t) by (destruct b; [apply Nn|apply TS]). split; [exact Ln|].
  cbn [apply_op on_arr]. unfold gaussian_noise.
  assert (L : Qlt_bool std 0 = false) by (unfold Qlt_bool; apply negb_false_iff, Qle_bool_iff, P). rewrite L.
  destruct (Qeq_bool std 0) eqn:E.
  - apply Qeq_bool_iff in E. exists t, s0. cbn [bind]. split; [reflexivity|]. split; [destruct t; reflexivity|]. intros i _. rewrite E. ring.
  - destruct (entrywise (fun x e => x + e * std)%Q t noise 0%Q Ln) as [S N]. unfold noise in *.
    destruct b; [destruct (g_normals G (size t) s0) as [es s1]|destruct (g_int G 0 (2 ^ 31) s0) as [z s1]]; cbn [fst bind] in *; eexists; exists s1;
      (split; [reflexivity|]; split; [exact S|]; intros i Hi; rewrite (N i Hi); ring).
Qed.
Theorem C34_gaussian_noise_negative is_space G T lower std b t s0 w0 : (std < 0)%Q ->
  apply_op is_space G T lower (OGaussian std) (DArr b t) s0 w0 = Err ValueError.
Proof.
  intros P. cbn [apply_op on_arr]. unfold gaussian_noise. assert (L : Qlt_bool std 0 = true); [|rewrite L; reflexivity].
  unfold Qlt_bool. destruct (Qle_bool 0 std) eqn:E; [|reflexivity]. apply Qle_bool_iff in E. lra.
Qed.
Example C34_example_noise : (forall z n, length (t_seeded ex_T z n) = n) /\
  match apply_op ex_space ex_G ex_T (fun x => x) (OGaussian (1#2)) (DArr Numpy (T1 [5; 6]%Q)) 0%nat 0%Q with
  | Ok (DArr _ (T1 l), _, _) => Forall2 Qeq l [6; 7]%Q | _ => False end.
Proof. split; [intros; apply repeat_length|]. vm_compute. repeat constructor. Qed.

(* swap noise on a numpy array: an entry keeps its value or becomes the noise *)
Theorem C34_swap_noise is_space G T lower p t s0 w0 : draws_ok G -> (0 <= p)%Q -> (p <= 1)%Q ->
  exists t' s1 us es, apply_op is_space G T lower (OSwapNoise p) (DArr Numpy t) s0 w0 = Ok (DArr Numpy t', s1, w0) /\
    same_shape t t' /\ length us = size t /\ length es = size t /\ (forall u, In u us -> 0 <= u /\ u < 1)%Q /\
    forall i, (i < size t)%nat -> nth i (flat t') 0%Q = if Qlt_le_dec (nth i us 0%Q) p then nth i es 0%Q else nth i (flat t) 0%Q.
Proof.
  intros ok P0 P1. cbn [apply_op]. unfold swap_noise. rewrite (in01_ok p P0 P1). destruct (Qeq_bool p 0) eqn:E.
  - apply Qeq_bool_iff in E. exists t, s0, (repeat 0%Q (size t)), (repeat 0%Q (size t)). cbn [bind]. split; [reflexivity|]. split; [destruct t; reflexivity|]. split; [apply repeat_length|]. split; [apply repeat_length|].
    split; [intros u Hu; apply repeat_spec in Hu; subst; lra|]. intros i Hi. rewrite nth_repeat. destruct (Qlt_le_dec 0 p); [lra|reflexivity].
  - destruct ok as (_ & U & _ & _ & _ & Nn). destruct (U (size t) s0) as [L R]. destruct (g_units G (size t) s0) as [us s1]. cbn [fst] in *.
    pose proof (Nn (size t) s1) as Le. destruct (g_normals G (size t) s1) as [es s2]. cbn [fst bind] in *.
    destruct (entrywise (fun x ue => if Qlt_bool (fst ue) p then snd ue else x) t (combine us es) (0%Q, 0%Q)) as [S N]; [rewrite combine_length; lia|].
    eexists. exists s2, us, es. split; [reflexivity|]. split; [exact S|]. split; [exact L|]. split; [exact Le|]. split; [exact R|]. intros i Hi. rewrite (N i Hi).
    rewrite combine_nth by lia. cbn [fst snd]. destruct (Qlt_le_dec (nth i us 0%Q) p) as [D|D]; destruct (Qlt_bool (nth i us 0%Q) p) eqn:B; try reflexivity.
    + apply Qlt_bool_false in B. lra.
    + apply Qlt_bool_iff in B. lra.
Qed.

Example C34_feature_example :
  apply_op ex_space ex_G ex_T (fun x => x) (OFeatureDropout (1#2)) (DArr Torch (T2 [[5; 6]; [7; 8]]%Q)) 1%nat 0%Q = Ok (DArr Torch (T2 [[5; 0]; [7; 0]]%Q), 5%nat, 0%Q) /\
  apply_op ex_space ex_G ex_T (fun x => x) (OSwapNoise (1#2)) (DArr Numpy (T2 [[5; 6]; [7; 8]]%Q)) 0%nat 0%Q = Ok (DArr Numpy (T2 [[2; 6]; [2; 8]]%Q), 5%nat, 0%Q).
Proof. split; vm_compute; reflexivity. Qed.

(* ----- C34: edges ----- *)

(* the edges whose draw reaches p stay, in order, each with its own weight; the nodes are untouched *)
Theorem C34_edge_dropout is_space G T lower p b x e es ow s0 w0 : draws_ok G -> (0 <= p)%Q -> (p <= 1)%Q -> ~ (p == 0)%Q ->
  edges_written e es -> (forall w, ow = Some w -> length w = length es) ->
  exists us s1, length us = length es /\ (forall u, In u us -> 0 <= u /\ u < 1)%Q /\
    apply_op is_space G T lower (OEdgeDropout p) (DGraph b {| gr_x := x; gr_edges := e; gr_weight := ow |}) s0 w0 =
      Ok (DGraph b {| gr_x := x; gr_edges := [map fst (surviving p us es); map snd (surviving p us es)];
                      gr_weight := option_map (surviving p us) ow |}, s1, w0) /\
    subsequence (surviving p us es) es /\
    forall w, ow = Some w -> combine (surviving p us es) (surviving p us w) = surviving p us (combine es w).
Proof.
  intros ok P0 P1 Pn E Lw. cbn [apply_op]. unfold edge_dropout. cbn [gr_x gr_edges gr_weight]. rewrite (in01_ok p P0 P1).
  destruct (Qeq_bool p 0) eqn:E0; [apply Qeq_bool_iff in E0; contradiction|]. rewrite (edge_index_written e es E). cbn [bind].
  destruct ok as (_ & U & _). rewrite map_length. destruct (U (length es) s0) as [L R]. destruct (g_units G (length es) s0) as [us s1]. cbn [fst] in *.
  assert (T1 : take (map fst es) (filter (fun i => Qle_bool p (nth i us 0%Q)) (seq 0 (length es))) = Ok (map fst (surviving p us es))).
  { rewrite <- surviving_map. pose proof (take_filter 0 p us (map fst es)) as X. rewrite map_length in X. now apply X. }
  assert (T2 : take (map snd es) (filter (fun i => Qle_bool p (nth i us 0%Q)) (seq 0 (length es))) = Ok (map snd (surviving p us es))).
  { rewrite <- surviving_map. pose proof (take_filter 0 p us (map snd es)) as X. rewrite map_length in X. now apply X. }
  rewrite T1. cbn [bind]. rewrite T2. cbn [bind]. exists us, s1. split; [exact L|]. split; [exact R|]. split; [|split; [apply surviving_sub|]].
  - destruct ow as [w|]; [|reflexivity]. rewrite <- (Lw w eq_refl). rewrite (take_filter 0%Q p us w) by (rewrite (Lw w eq_refl); exact L). reflexivity.
  - intros w Hw. specialize (Lw w Hw). clear - L Lw. revert es us w L Lw. induction es as [|a es IH]; intros [|u us] [|v w] L Lw; cbn in L, Lw; try lia; [reflexivity|].
    unfold surviving in *. cbn [combine filter]. cbn [fst]. destruct (Qlt_le_dec u p); [apply IH; lia|]. cbn [map snd combine]. f_equal. apply IH; lia.
Qed.

(* with p = 0 nothing changes, not even the shape of the edge array *)
Theorem C34_edge_dropout_zero is_space G T lower p b g s0 w0 : (p == 0)%Q ->
  apply_op is_space G T lower (OEdgeDropout p) (DGraph b g) s0 w0 = Ok (DGraph b g, s0, w0).
Proof.
  intros P. cbn [apply_op]. unfold edge_dropout. rewrite in01_ok by lra. assert (E : Qeq_bool p 0 = true) by now apply Qeq_bool_iff. rewrite E. reflexivity.
Qed.

Example C34_edge_example : edges_written [[0; 1]; [1; 2]; [2; 0]] [(0, 1); (1, 2); (2, 0)] /\
  apply_op ex_space ex_G ex_T (fun x => x) (OEdgeDropout (1#2)) (DGraph Numpy {| gr_x := T1 [7%Q]; gr_edges := [[0; 1]; [1; 2]; [2; 0]]; gr_weight := Some [3; 4; 5]%Q |}) 0%nat 0%Q =
    Ok (DGraph Numpy {| gr_x := T1 [7%Q]; gr_edges := [[1]; [2]]; gr_weight := Some [4%Q] |}, 3%nat, 0%Q).
Proof. split; [right; split; [discriminate|split; [discriminate|reflexivity]]|vm_compute; reflexivity]. Qed.

(* two edges written one per row (shape (2, 2)) are read as columns: the result has an edge the graph has not *)
Theorem C34_edge_rows_refuted : exists es e' g',
  es = [(0, 1); (2, 3)] /\
  apply_op ex_space ex_G ex_T (fun x => x) (OEdgeDropout (1#2)) (DGraph Numpy {| gr_x := T1 []; gr_edges := map (fun ab => [fst ab; snd ab]) es; gr_weight := None |}) 0%nat 0%Q = Ok (DGraph Numpy g', 2%nat, 0%Q) /\
  edges_written (gr_edges g') [e'] /\ ~ In e' es.
Proof.
  eexists. exists (1, 3). eexists. split; [reflexivity|]. split; [vm_compute; reflexivity|]. split; [left; reflexivity|].
  intros [H|[H|[]]]; discriminate.
Qed.

(* ----- C34: audio ----- *)

(* every row is rotated by the same amount, at most round(max_frac * length) *)
Theorem C34_time_shift is_space G T lower f b t s0 w0 : draws_ok G -> (0 <= f)%Q -> (f <= 1)%Q ->
  exists t' s1 m k, apply_op is_space G T lower (OTimeShift f) (DArr b t) s0 w0 = Ok (DArr b t', s1, w0) /\ same_shape t t' /\
    nearest_even (f * inject_Z (Z.of_nat (last_dim t)))%Q m /\ Z.abs k <= m /\ Forall2 (rotated k) (rows_of t) (rows_of t').
Proof.
  intros ok F0 F1. cbn [apply_op on_arr]. destruct (time_shift_spec G f t s0 ok F0 F1) as (t' & s1 & m & k & E & R). rewrite E. cbn [bind]. exists t', s1, m, k. auto.
Qed.

Example C34_audio_example :
  apply_op ex_space ex_G ex_T (fun x => x) (OTimeShift (1#2)) (DArr Numpy (T2 [[1; 2; 3; 4]; [5; 6; 7; 8]]%Q)) 0%nat 0%Q = Ok (DArr Numpy (T2 [[3; 4; 1; 2]; [7; 8; 5; 6]]%Q), 1%nat, 0%Q) /\
  apply_op ex_space ex_G ex_T (fun x => x) (OTimeShift (1#4)) (DArr Numpy (T1 [1; 2; 3; 4]%Q)) 0%nat 0%Q = Ok (DArr Numpy (T1 [2; 3; 4; 1]%Q), 1%nat, 0%Q).
Proof. split; vm_compute; reflexivity. Qed.

(* ----- C34: images ----- *)

(* a draw below p reverses every row of pixels, otherwise nothing happens *)
Theorem C34_flip is_space G T lower p b lay t H W C s0 w0 : draws_ok G -> (0 <= p)%Q -> (p <= 1)%Q -> layout_of b t = Ok lay -> image lay t H W C ->
  exists t' s1 u, apply_op is_space G T lower (OFlip p) (DArr b t) s0 w0 = Ok (DArr b t', s1, w0) /\ image lay t' H W C /\ (0 <= u)%Q /\ (u < 1)%Q /\
    ((p <= u)%Q -> t' = t) /\
    ((u < p)%Q -> forall r c, (r < H)%nat -> (c < W)%nat -> pixel lay t' r c = pixel lay t r (W - 1 - c)).
Proof.
  intros ok P0 P1 Hl Im. cbn [apply_op on_arr]. unfold horizontal_flip. rewrite (in01_ok p P0 P1). destruct ok as (U & _). pose proof (U s0) as [U0 U1].
  destruct (g_unit G s0) as [u s1]. cbn [fst] in *. destruct (Qlt_bool u p) eqn:B.
  - rewrite Hl. cbn [bind]. destruct (on_grid_spec _ _ _ _ _ 0%Q lay t C (flip_moves H W) Im) as [Im' Px]. eexists. exists s1, u. split; [reflexivity|].
    split; [exact Im'|]. split; [exact U0|]. split; [exact U1|]. apply Qlt_bool_iff in B. split; [lra|]. intros _ r c Hr Hc. destruct (Px r c Hr Hc) as (_ & _ & E). exact E.
  - cbn [bind]. exists t, s1, u. apply Qlt_bool_false in B. split; [reflexivity|]. split; [exact Im|]. split; [exact U0|]. split; [exact U1|]. split; [auto|lra].
Qed.

(* flipping surely, twice, gives the image back *)
Theorem C34_flip_twice is_space G T lower p b t t' y s0 s1 s2 w0 w1 w2 : draws_ok G -> (p == 1)%Q -> layout_of b t' = layout_of b t ->
  apply_op is_space G T lower (OFlip p) (DArr b t) s0 w0 = Ok (DArr b t', s1, w1) ->
  apply_op is_space G T lower (OFlip p) (DArr b t') s1 w1 = Ok (y, s2, w2) -> y = DArr b t.
Proof.
  intros ok P Hl. cbn [apply_op on_arr]. unfold horizontal_flip. rewrite !in01_ok by lra. destruct ok as (U & _). pose proof (U s0) as [_ U1]. pose proof (U s1) as [_ U2].
  destruct (g_unit G s0) as [u0 s0']. cbn [fst] in *. assert (B : Qlt_bool u0 p = true) by (apply Qlt_bool_iff; lra). rewrite B.
  destruct (layout_of b t) as [lay|]; [|discriminate]. cbn [bind]. intros [= <- <- <-].
  destruct (g_unit G s0') as [u1 s1']. cbn [fst] in *. assert (B1 : Qlt_bool u1 p = true) by (apply Qlt_bool_iff; lra). rewrite B1, Hl. cbn [bind]. intros [= <- _ _].
  now rewrite flip_twice.
Qed.

(* the pixels inside the squares drawn become the fill value, the others do not change *)
Theorem C34_cutout is_space G T lower n len v b lay t H W C s0 w0 : draws_ok G -> 0 < n -> 0 < len -> layout_of b t = Ok lay -> image lay t H W C ->
  exists t' s1 holes, apply_op is_space G T lower (OCutout None n len v) (DArr b t) s0 w0 = Ok (DArr b t', s1, w0) /\ image lay t' H W C /\
    length holes = Z.to_nat n /\
    (forall h, In h holes -> 0 <= fst h /\ 0 <= snd h /\ (len <= Z.of_nat H -> fst h + len <= Z.of_nat H) /\ (len <= Z.of_nat W -> snd h + len <= Z.of_nat W) /\
        (Z.of_nat H <= len -> fst h = 0) /\ (Z.of_nat W <= len -> snd h = 0)) /\
    forall r c, (r < H)%nat -> (c < W)%nat ->
      pixel lay t' r c = if existsb (fun h => in_square len h r c) holes then map (fun _ => v) (pixel lay t r c) else pixel lay t r c.
Proof.
  intros ok Hn Hl Hla Im. cbn [apply_op on_arr]. unfold cutout. destruct (Z.leb_spec len 0); [lia|]. destruct (Z.leb_spec n 0); [lia|]. cbn [orb]. rewrite Hla. cbn [bind].
  rewrite (grid_size_image lay t H W C Im). cbn [bind].
  destruct (cut_holes_spec G v lay H W C len ok ltac:(lia) (Z.to_nat n) t s0 Im) as (holes & L & Im' & Hb & Hp).
  destruct (cut_holes G (Z.to_nat n) (Z.of_nat H) (Z.of_nat W) len v lay t s0) as [t' s1]. cbn [fst bind] in *. exists t', s1, holes. auto.
Qed.

(* given as a fraction: one square of side max(1, round(frac * min(H, W))) that fits in the image *)
Theorem C34_cutout_fraction is_space G T lower f v b lay t H W C s0 w0 : draws_ok G -> (0 < f)%Q -> (f <= 1)%Q -> layout_of b t = Ok lay -> image lay t H W C ->
  exists t' s1 len top lft m, apply_op is_space G T lower (OCutout (Some f) 1 16 v) (DArr b t) s0 w0 = Ok (DArr b t', s1, w0) /\ image lay t' H W C /\
    nearest_even (f * inject_Z (Z.min (Z.of_nat H) (Z.of_nat W)))%Q m /\ len = Z.max 1 m /\
    0 <= top /\ 0 <= lft /\ top + len <= Z.of_nat H /\ lft + len <= Z.of_nat W /\
    forall r c, (r < H)%nat -> (c < W)%nat ->
      pixel lay t' r c = if in_square len (top, lft) r c then map (fun _ => v) (pixel lay t r c) else pixel lay t r c.
Proof.
  intros ok F0 F1 Hla Im. cbn [apply_op on_arr]. unfold cutout. cbn [Z.eqb negb orb Pos.eqb]. rewrite in01_ok by lra. cbn [negb].
  destruct (Qeq_bool f 0) eqn:E; [apply Qeq_bool_iff in E; lra|]. rewrite Hla. cbn [bind]. rewrite (grid_size_image lay t H W C Im). cbn [bind].
  set (q := (f * inject_Z (Z.min (Z.of_nat H) (Z.of_nat W)))%Q). set (len := Z.max 1 (round_even q)). pose proof (round_even_nearest q) as N.
  assert (Up : round_even q <= Z.min (Z.of_nat H) (Z.of_nat W)).
  { apply (nearest_even_upper q _ _ N). unfold q. assert (X : (0 <= inject_Z (Z.min (Z.of_nat H) (Z.of_nat W)))%Q) by (change 0%Q with (inject_Z 0); rewrite <- Zle_Qle; lia).
    revert X. generalize (inject_Z (Z.min (Z.of_nat H) (Z.of_nat W))). intros z X. nra. }
  pose proof Im as (H0 & W0 & _).
  destruct (cut_holes_spec G v lay H W C len ok ltac:(unfold len; lia) 1 t s0 Im) as (holes & L & Im' & Hb & Hp).
  change (Z.to_nat 1) with 1%nat. destruct (cut_holes G 1 (Z.of_nat H) (Z.of_nat W) len v lay t s0) as [t' s1]. cbn [fst bind] in *.
  destruct holes as [|[top lft] [|]]; cbn in L; try lia. destruct (Hb (top, lft) (or_introl eq_refl)) as (B1 & B2 & B3 & B4 & _). cbn [fst snd] in *.
  exists t', s1, len, top, lft, (round_even q). split; [reflexivity|]. split; [exact Im'|]. split; [exact N|]. split; [reflexivity|]. split; [exact B1|]. split; [exact B2|].
  split; [apply B3; unfold len; lia|]. split; [apply B4; unfold len; lia|]. intros r c Hr Hc. rewrite (Hp r c Hr Hc). cbn [existsb]. now rewrite orb_false_r.
Qed.

(* the window moves by at most pad in each direction, and the border is filled by reflection *)
Theorem C34_crop_pad is_space G T lower pad b lay t H W C s0 w0 : draws_ok G -> 0 < pad -> layout_of b t = Ok lay -> image lay t H W C ->
  (b = Torch -> pad < Z.of_nat H /\ pad < Z.of_nat W) ->
  exists t' s1 dy dx, apply_op is_space G T lower (OCropPad None pad) (DArr b t) s0 w0 = Ok (DArr b t', s1, w0) /\ image lay t' H W C /\
    Z.abs dy <= pad /\ Z.abs dx <= pad /\
    forall r c, (r < H)%nat -> (c < W)%nat -> exists r0 c0,
      folds_to (Z.of_nat H) (dy + Z.of_nat r) (Z.of_nat r0) /\ folds_to (Z.of_nat W) (dx + Z.of_nat c) (Z.of_nat c0) /\ pixel lay t' r c = pixel lay t r0 c0.
Proof.
  intros ok Hp Hla Im Ht. cbn [apply_op on_arr]. unfold crop_pad. destruct (Z.ltb_spec pad 0) as [Lp|_]; [lia|]. destruct (Z.eqb_spec pad 0) as [Lp|_]; [lia|]. rewrite Hla. cbn [bind].
  rewrite (grid_size_image lay t H W C Im). cbn [bind].
  assert (B : match b with Torch => (Z.of_nat H <=? pad) || (Z.of_nat W <=? pad) | Numpy => false end = false).
  { destruct b; [reflexivity|]. specialize (Ht eq_refl). lia. }
  rewrite B. destruct ok as (_ & _ & I & _). pose proof (I 0 (2 * pad + 1) s0 ltac:(lia)) as It. destruct (g_int G 0 (2 * pad + 1) s0) as [top s1].
  pose proof (I 0 (2 * pad + 1) s1 ltac:(lia)) as Il. destruct (g_int G 0 (2 * pad + 1) s1) as [lft s2]. cbn [fst bind] in *. pose proof Im as (H0 & W0 & _).
  destruct (on_grid_spec _ _ _ _ _ 0%Q lay t C (crop_moves H W (top - pad) (lft - pad) H0 W0) Im) as [Im' Px].
  eexists. exists s2, (top - pad), (lft - pad). split; [reflexivity|]. split; [exact Im'|]. split; [lia|]. split; [lia|].
  intros r c Hr Hc. destruct (Px r c Hr Hc) as (A1 & A2 & E). cbn [fst snd] in *.
  destruct (axis_window_spec H (top - pad) H0) as [_ FH], (axis_window_spec W (lft - pad) W0) as [_ FW]. specialize (FH r Hr). specialize (FW c Hc).
  exists (Z.to_nat (nth r (axis_window (Z.of_nat H) (top - pad)) 0)), (Z.to_nat (nth c (axis_window (Z.of_nat W) (lft - pad)) 0)).
  pose proof FH as [RH _]. pose proof FW as [RW _]. rewrite !Z2Nat.id by lia. auto.
Qed.

(* a position inside the line is its own fold, so a shift of 0 keeps the image *)
Theorem C34_fold_inside n i j : 0 <= i < n -> folds_to n i j -> j = i.
Proof.
  intros Hi (Hj & [->|(k & [E|E])]); [lia| |]; destruct (Z.eq_dec n 1); try lia; assert (K : k <= -1 \/ k = 0 \/ k = 1 \/ 2 <= k) by lia;
    destruct K as [K|[->|[->|K]]]; try lia; nia.
Qed.

Example C34_image_example :
  layout_of Numpy (T2 [[1; 2; 3]; [4; 5; 6]]%Q) = Ok HW /\ image HW (T2 [[1; 2; 3]; [4; 5; 6]]%Q) 2 3 1 /\
  apply_op ex_space ex_G ex_T (fun x => x) (OFlip 1%Q) (DArr Numpy (T2 [[1; 2; 3]; [4; 5; 6]]%Q)) 0%nat 0%Q = Ok (DArr Numpy (T2 [[3; 2; 1]; [6; 5; 4]]%Q), 1%nat, 0%Q) /\
  apply_op ex_space ex_G ex_T (fun x => x) (OCutout None 1 2 0%Q) (DArr Numpy (T2 [[1; 2; 3]; [4; 5; 6]]%Q)) 0%nat 0%Q = Ok (DArr Numpy (T2 [[0; 0; 3]; [0; 0; 6]]%Q), 2%nat, 0%Q) /\
  apply_op ex_space ex_G ex_T (fun x => x) (OCropPad None 1) (DArr Numpy (T2 [[1; 2; 3]; [4; 5; 6]]%Q)) 0%nat 0%Q = Ok (DArr Numpy (T2 [[5; 4; 5]; [2; 1; 2]]%Q), 2%nat, 0%Q).
Proof.
  split; [reflexivity|]. split.
  - unfold image, grid. cbn. split; [lia|]. split; [lia|]. split; [lia|]. split; [|reflexivity]. split; [reflexivity|]. intros r [<-|[<-|[]]]; reflexivity.
  - split; [|split]; vm_compute; reflexivity.
Qed.

(* the axis that is flipped: both backends recognise ordinary images ... *)
Theorem C34_layouts_agree_partial l a h c : shape3 l = (a, h, c) ->
  ((a = 1 \/ a = 3 \/ a = 4) /\ 4 < c -> layout_of Numpy (T3 l) = Ok CHW /\ layout_of Torch (T3 l) = Ok CHW) /\
  ((c = 1 \/ c = 3 \/ c = 4) /\ 4 < a -> layout_of Numpy (T3 l) = Ok HWC /\ layout_of Torch (T3 l) = Ok HWC).
Proof.
  intros E. unfold layout_of. rewrite E. unfold few. split; intros [A B]; split.
  - replace (_ && _) with true by lia. reflexivity.
  - replace (_ && _) with false by lia. reflexivity.
  - replace (_ && _) with false by lia. reflexivity.
  - replace (_ && _) with true by lia. reflexivity.
Qed.

(* ... but the same array of two channels is flipped along different axes *)
Theorem C34_layouts_agree_refuted : exists l y y', shape3 l = (2, 2, 3) /\
  apply_op ex_space ex_G ex_T (fun x => x) (OFlip 1%Q) (DArr Numpy (T3 l)) 0%nat 0%Q = Ok (DArr Numpy y, 1%nat, 0%Q) /\
  apply_op ex_space ex_G ex_T (fun x => x) (OFlip 1%Q) (DArr Torch (T3 l)) 0%nat 0%Q = Ok (DArr Torch y', 1%nat, 0%Q) /\ y <> y'.
Proof.
  exists [[[1; 2; 3]; [4; 5; 6]]; [[7; 8; 9]; [10; 11; 12]]]%Q. eexists. eexists. split; [reflexivity|]. split; [vm_compute; reflexivity|]. split; [vm_compute; reflexivity|]. discriminate.
Qed.

(* ----- C35 ----- *)

(* the result and the torch state: unchanged, whatever it was *)
Lemma apply_op_local is_space G T lower o x s (w0 : t_state T) : (forall p t, o = OSwapNoise p -> x = DArr Torch t -> False) ->
  exists r, (forall w', apply_op is_space G T lower o x s w' = match r with Ok (y, s1) => Ok (y, s1, w') | Err e => Err e end) /\
    (forall y s1, r = Ok (y, s1) -> (forall t, x <> DArr Torch t) -> forall t, y <> DArr Torch t).
Proof.
  intros N.
  assert (TX : forall (f : str -> g_state G -> result (str * g_state G)), exists r,
     (forall w', (do ' (y, s1) <- on_text G f x s; Ok (y, s1, w' : t_state T)) = match r with Ok (y, s1) => Ok (y, s1, w') | Err e => Err e end) /\
     (forall y s1, r = Ok (y, s1) -> (forall t, x <> DArr Torch t) -> forall t, y <> DArr Torch t)).
  { intros f. exists (on_text G f x s). split; [intros w'; destruct (on_text G f x s) as [[y s1]|e]; reflexivity|].
    intros y s1 E _ t. destruct x as [l|b t0|b g]; cbn in E; try discriminate. inv_bind E. destruct a as [l' s2]. injection E as <- <-. discriminate. }
  assert (AX : forall (f : backend -> tensor -> g_state G -> result (tensor * g_state G)), exists r,
     (forall w', (do ' (y, s1) <- on_arr G f x s; Ok (y, s1, w' : t_state T)) = match r with Ok (y, s1) => Ok (y, s1, w') | Err e => Err e end) /\
     (forall y s1, r = Ok (y, s1) -> (forall t, x <> DArr Torch t) -> forall t, y <> DArr Torch t)).
  { intros f. exists (on_arr G f x s). split; [intros w'; destruct (on_arr G f x s) as [[y s1]|e]; reflexivity|].
    intros y s1 E Hx t Hy. destruct x as [l|b t0|b g]; cbn in E; try discriminate. inv_bind E. destruct a as [t' s2]. injection E as <- <-.
    injection Hy as -> ->. now apply (Hx t0). }
  destruct o; cbn [apply_op]; try apply TX; try apply AX.
  - exists (Ok (x, s)). split; [reflexivity|]. intros y s1 [= <- <-] H. exact H.
  - destruct x as [l|b t|b g]; try (exists (Err TypeError); split; [reflexivity|discriminate]).
    destruct b; [|exfalso; now apply (N p t)].
    exists (do ' (t', s1, _) <- swap_noise G T p Numpy t s w0; Ok (DArr Numpy t', s1)). split.
    + intros w'. unfold swap_noise. destruct (in01 p); [|reflexivity]. destruct (Qeq_bool p 0); [reflexivity|].
      destruct (g_units G (size t) s) as [us s1]. destruct (g_normals G (size t) s1) as [es s2]. reflexivity.
    + intros y s1 E _ t' Hy. inv_bind E. destruct a as [[t2 s2] w2]. injection E as <- <-. discriminate.
  - destruct x as [l|b t|b g]; try (exists (Err TypeError); split; [reflexivity|discriminate]).
    exists (do ' (g', s1) <- edge_dropout G p g s; Ok (DGraph b g', s1)). split; [intros w'; destruct (edge_dropout G p g s) as [[? ?]|]; reflexivity|].
    intros y s1 E _ t' Hy. inv_bind E. destruct a as [g2 s2]. injection E as <- <-. discriminate.
  - destruct x as [l|b t|b g]; try (exists (Err TypeError); split; [reflexivity|discriminate]).
    exists (do ' (x', s1) <- feature_dropout G p (gr_x g) s; Ok (DGraph b {| gr_x := x'; gr_edges := gr_edges g; gr_weight := gr_weight g |}, s1)).
    split; [intros w'; destruct (feature_dropout G p (gr_x g) s) as [[? ?]|]; reflexivity|].
    intros y s1 E _ t' Hy. inv_bind E. destruct a as [g2 s2]. injection E as <- <-. discriminate.
Qed.

Lemma run_ops_local is_space G T lower ops : forall x s, ((forall t, x <> DArr Torch t) \/ (forall p, ~ In (OSwapNoise p) ops)) ->
  forall w w' : t_state T, exists r, run_ops is_space G T lower ops x s w = match r with Ok (y, s1) => Ok (y, s1, w) | Err e => Err e end /\
    run_ops is_space G T lower ops x s w' = match r with Ok (y, s1) => Ok (y, s1, w') | Err e => Err e end.
Proof.
  induction ops as [|o ops IH]; intros x s H w w'; cbn [run_ops]; [exists (Ok (x, s)); auto|].
  destruct (apply_op_local is_space G T lower o x s w) as (r & E & K).
  { intros p t -> ->. destruct H as [H|H]; [now apply (H t)|apply (H p); now left]. }
  rewrite (E w), (E w'). destruct r as [[y s1]|e]; [|exists (Err e); auto]. cbn [bind]. apply IH. destruct H as [H|H]; [left; now apply (K y s1)|right; intros p I; apply (H p); now right].
Qed.

(* Full statement: for every operation and input.  Proved except for swap noise on torch tensors. *)
Theorem C35_deterministic_partial is_space G T lower hash ops x c (w w' : t_state T) :
  ((forall t, x <> DArr Torch t) \/ (forall p, ~ In (OSwapNoise p) ops)) ->
  (forall e, pipeline is_space G T lower hash ops x c w = Err e -> pipeline is_space G T lower hash ops x c w' = Err e) /\
  (forall y w1, pipeline is_space G T lower hash ops x c w = Ok (y, w1) -> w1 = w /\ pipeline is_space G T lower hash ops x c w' = Ok (y, w')).
Proof.
  intros H. unfold pipeline. destruct (run_ops_local is_space G T lower ops x (g_seed G (seed_to_rng_seed hash (cx_seed c) (cx_epoch c) (cx_sample c))) H w w') as (r & E1 & E2).
  rewrite E1, E2. destruct r as [[y s1]|e]; cbn [bind].
  - split; [discriminate|]. intros y' w1 [= <- <-]. auto.
  - split; [auto|discriminate].
Qed.

(* the weak and the strong view are what the two pipelines give on their own *)
Theorem C35_strategy_partial is_space G T lower hash weak strong x c (w w' : t_state T) a b w1 :
  ((forall t, x <> DArr Torch t) \/ (forall p, ~ In (OSwapNoise p) (weak ++ strong))) ->
  strategy is_space G T lower hash weak strong x c w = Ok (a, b, w1) ->
  pipeline is_space G T lower hash weak x c w' = Ok (a, w') /\ pipeline is_space G T lower hash strong x c w' = Ok (b, w') /\ w1 = w.
Proof.
  intros H E. unfold strategy in E. inv_bind E. destruct a0 as [a' w2]. cbn beta iota in E. inv_bind E. destruct a0 as [b' w3]. injection E as -> -> ->.
  assert (H1 : (forall t, x <> DArr Torch t) \/ (forall p, ~ In (OSwapNoise p) weak)) by (destruct H as [H|H]; [now left|right; intros p I; apply (H p), in_app_iff; now left]).
  assert (H2 : (forall t, x <> DArr Torch t) \/ (forall p, ~ In (OSwapNoise p) strong)) by (destruct H as [H|H]; [now left|right; intros p I; apply (H p), in_app_iff; now right]).
  destruct (C35_deterministic_partial is_space G T lower hash weak x c w w' H1) as [_ D1]. destruct (D1 _ _ E0) as [-> D1'].
  destruct (C35_deterministic_partial is_space G T lower hash strong x c w w' H2) as [_ D2]. destruct (D2 _ _ E1) as [-> D2']. auto.
Qed.

Example C35_example : exists y,
  pipeline ex_space ex_G ex_T (fun x => x) (fun _ => [1; 2; 3; 4; 5; 6; 7; 8]) [OGaussian (1#2); OSwapNoise (1#2)] (DArr Numpy (T1 [5; 6]%Q)) {| cx_seed := 1; cx_epoch := 2; cx_sample := 3 |} 0%Q = Ok (y, 0%Q) /\
  y = DArr Numpy (T1 [12#2; 2]%Q).
Proof. eexists. split; vm_compute; reflexivity. Qed.

(* the same context and sample, two states of torch's own generator, two results *)
Theorem C35_swap_noise_torch_refuted : exists ops x c (w w' : t_state ex_T) y y' w1 w1',
  pipeline ex_space ex_G ex_T (fun x => x) (fun _ => []) ops x c w = Ok (y, w1) /\
  pipeline ex_space ex_G ex_T (fun x => x) (fun _ => []) ops x c w' = Ok (y', w1') /\ y <> y' /\ ops = [OSwapNoise (1#2)].
Proof.
  exists [OSwapNoise (1#2)], (DArr Torch (T1 [5%Q])), {| cx_seed := 1; cx_epoch := 2; cx_sample := 3 |}, 0%Q, 1%Q. eexists. eexists. eexists. eexists.
  split; [vm_compute; reflexivity|]. split; [vm_compute; reflexivity|]. split; [discriminate|reflexivity].
Qed.

(* ----- C66 ----- *)

Theorem C66_build_pipeline {Op Params} (make : string -> Params -> result Op) modality_of modality steps :
  (forall ops, build_pipeline make modality_of modality steps = Ok ops <->
     Forall2 (fun st o => make (fst st) (snd st) = Ok o /\ forall m, modality = Some m -> modality_of o = "any"%string \/ modality_of o = m) steps ops) /\
  (forall e, build_pipeline make modality_of modality steps = Err e -> exists done st rest, steps = done ++ st :: rest /\
     (make (fst st) (snd st) = Err e \/
      e = DataAugmentationError /\ exists o m, make (fst st) (snd st) = Ok o /\ modality = Some m /\ modality_of o <> "any"%string /\ modality_of o <> m)).
Proof.
  assert (Comp : forall o, (match modality with None => true | Some m => String.eqb (modality_of o) "any" || String.eqb (modality_of o) m end = true <->
     forall m, modality = Some m -> modality_of o = "any"%string \/ modality_of o = m)).
  { intros o. destruct modality as [m|]; [|split; [discriminate|reflexivity]]. rewrite orb_true_iff, !String.eqb_eq. split; [intros H m' [= <-]; exact H|intros H; now apply H]. }
  induction steps as [|[id ps] steps [IH1 IH2]]; cbn [build_pipeline].
  - split; [|discriminate]. intros ops. split; [intros [= <-]; constructor|]. intros H. inversion H. reflexivity.
  - destruct (make id ps) as [o|e0] eqn:M; cbn [bind].
    + destruct (match modality with None => true | Some m => String.eqb (modality_of o) "any" || String.eqb (modality_of o) m end) eqn:B.
      * pose proof (proj1 (Comp o) B) as B'. destruct (build_pipeline make modality_of modality steps) as [os|e1] eqn:R; cbn [bind].
        { split; [|discriminate]. intros ops. split.
          - intros [= <-]. constructor; [split; [exact M|exact B']|now apply IH1].
          - intros H. inversion H as [|? o' ? os' [M' _] F]. subst. cbn [fst snd] in M'. rewrite M in M'. injection M' as <-. apply IH1 in F. injection F as ->. reflexivity. }
        { split.
          - intros ops. split; [discriminate|]. intros H. inversion H as [|? o' ? os' [M' _] F]. subst. apply IH1 in F. discriminate.
          - intros e [= <-]. destruct (IH2 e1 eq_refl) as (dn & st & rest & -> & H). exists ((id, ps) :: dn), st, rest. auto. }
      * assert (NB : ~ (forall m, modality = Some m -> modality_of o = "any"%string \/ modality_of o = m)) by (intros H; apply Comp in H; congruence).
        split.
        { intros ops. split; [discriminate|]. intros H. inversion H as [|? o' ? os' [M' C'] F]. subst. cbn [fst snd] in M'. rewrite M in M'. injection M' as <-. contradiction. }
        { intros e [= <-]. exists [], (id, ps), steps. split; [reflexivity|]. right. split; [reflexivity|]. destruct modality as [m|]; [|discriminate B].
          apply orb_false_iff in B. destruct B as [B1 B2]. apply String.eqb_neq in B1, B2. exists o, m. auto. }
    + split.
      * intros ops. split; [discriminate|]. intros H. inversion H as [|? o' ? os' [M' _] F]. subst. cbn [fst snd] in M'. congruence.
      * intros e [= <-]. exists [], (id, ps), steps. auto.
Qed.

Example C66_example :
  let make := fun id (_ : unit) => if String.eqb id "x" then Err DataAugmentationError else Ok id in
  let modality_of := fun o => if String.eqb o "core.identity" then "any"%string else "text"%string in
  build_pipeline make modality_of (Some "text"%string) [("core.identity"%string, tt); ("text.lowercase"%string, tt)] = Ok ["core.identity"; "text.lowercase"]%string /\
  build_pipeline make modality_of (Some "vision"%string) [("core.identity"%string, tt); ("text.lowercase"%string, tt)] = Err DataAugmentationError.
Proof. split; vm_compute; reflexivity. Qed.

Print Assumptions C34_word_dropout.
Print Assumptions C34_random_swap.
Print Assumptions C34_words_unique.
Print Assumptions C34_token_swap.
Print Assumptions C34_token_mask.
Print Assumptions C34_feature_dropout.
Print Assumptions C34_gaussian_noise.
Print Assumptions C34_gaussian_noise_negative.
Print Assumptions C34_swap_noise.
Print Assumptions C34_edge_dropout.
Print Assumptions C34_edge_dropout_zero.
Print Assumptions C34_edge_rows_refuted.
Print Assumptions C34_time_shift.
Print Assumptions C34_flip.
Print Assumptions C34_flip_twice.
Print Assumptions C34_cutout.
Print Assumptions C34_cutout_fraction.
Print Assumptions C34_crop_pad.
Print Assumptions C34_fold_inside.
Print Assumptions C34_layouts_agree_partial.
Print Assumptions C34_layouts_agree_refuted.
Print Assumptions C35_deterministic_partial.
Print Assumptions C35_strategy_partial.
Print Assumptions C35_swap_noise_torch_refuted.
Print Assumptions C66_build_pipeline.
