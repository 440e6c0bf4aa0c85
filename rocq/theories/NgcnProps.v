(* C142: N-GCN. *)
From Coq Require Import QArith Qminmax Lqa ZifyBool ZifyNat.
From Verif Require Import Prelude ListFacts QFacts TransModel TransSpec TransProofs GnnModel GnnSpec GnnProofs GnnTrainProofs GnnProps NgcnModel NgcnSpec NgcnProofs.
Local Open Scope Q_scope.
Local Open Scope list_scope.

Section C142.
Variables Op G : Type.
Variable rsqrt : Q -> Q.
Variable tiny : Q.
Variable init : nat -> Z -> G -> ngcn_weights * G.
Variable seeded : Z -> G.
Variable opt : ngcn_weights -> Op.
Variable step : list mat * mat -> ngcn_weights -> Op -> G -> list (nat * Z) -> ngcn_weights * Op * G.
Variable val_loss : list mat * mat -> ngcn_weights -> list (nat * Z) -> option Q.
Variable softmax : list Q -> list Q.
Notation fit := (ngcn_fit Op G rsqrt tiny init seeded opt step val_loss).
Notation predict := (ngcn_predict rsqrt tiny softmax).

(* a fit returns exactly when the settings and the data are fine *)
Theorem C142_returns sp seed d g : (exists r, fit sp seed d g = Ok r) <->
  (1 <= nk_K sp)%Z /\ (1 <= nk_r sp)%Z /\ (1 <= nk_layers sp)%Z /\ nk_classifier_ok sp = true /\ usable d /\ (0 < nk_max_epochs sp)%Z /\
  (forall m i, nd_train d = Some m \/ nd_val d = Some m -> (i < List.length (nd_y d))%nat -> nth i m false = true -> (0 <= nth i (nd_y d) (-1))%Z \/ nth i (nd_y d) (-1)%Z = (-100)%Z).
Proof.
  set (sp' := {| gs_loops := false; gs_mode := NormSym; gs_max_epochs := nk_max_epochs sp; gs_patience := nk_patience sp |}).
  assert (HR := C106_returns ngcn_weights Op G rsqrt tiny init seeded opt (fun _ => step ([], [])) (fun _ => val_loss ([], [])) sp' seed d g). cbn [gs_max_epochs sp'] in HR. rewrite <- HR. clear HR.
  unfold ngcn_fit, gnn_fit. cbn [gs_loops gs_mode gs_max_epochs gs_patience sp'].
  destruct (Z.ltb_spec (nk_K sp) 1) as [H1|H1]; [split; [intros [r Hr]; discriminate|lia]|]. destruct (Z.ltb_spec (nk_r sp) 1) as [H2|H2]; [split; [intros [r Hr]; discriminate|lia]|].
  destruct (Z.ltb_spec (nk_layers sp) 1) as [H3|H3]; [split; [intros [r Hr]; discriminate|lia]|]. destruct (nk_classifier_ok sp); cbn [negb]; [|split; [intros [r Hr]; discriminate|intros (_ & _ & _ & H & _); discriminate]].
  destruct (prepare_data rsqrt tiny d false NormSym) as [p|e]; cbn [bind]; [|split; [intros [r Hr]; discriminate|intros (_ & _ & _ & _ & r & Hr); discriminate]].
  destruct (init (nd_width d) (pp_classes p) g) as [w g']. unfold train_fullbatch. cbv zeta.
  destruct (nk_max_epochs sp <=? 0)%Z; cbn [bind]; [split; [intros [r Hr]; discriminate|intros (_ & _ & _ & _ & r & Hr); discriminate]|].
  destruct (bad_target (pp_classes p) (shown (pp_train p) (pp_y p))); cbn [bind]; [split; [intros [r Hr]; discriminate|intros (_ & _ & _ & _ & r & Hr); discriminate]|].
  destruct (match val_rows (pp_val p) (pp_y p) with Some r => bad_target (pp_classes p) r | None => false end); cbn [bind]; [split; [intros [r Hr]; discriminate|intros (_ & _ & _ & _ & r & Hr); discriminate]|].
  split; [intros _; repeat (split; [first [assumption|reflexivity]|]); eexists; reflexivity|intros _; eexists; reflexivity].
Qed.
(* settings below 1 and unknown classifiers are refused, whatever the data *)
Theorem C142_rejects sp seed d g : (nk_K sp < 1)%Z \/ (nk_r sp < 1)%Z \/ (nk_layers sp < 1)%Z \/ nk_classifier_ok sp = false -> fit sp seed d g = Err ValueError.
Proof.
  intros H. unfold ngcn_fit. destruct (Z.ltb_spec (nk_K sp) 1); [reflexivity|]. destruct (Z.ltb_spec (nk_r sp) 1); [reflexivity|]. destruct (Z.ltb_spec (nk_layers sp) 1); [reflexivity|]. destruct (nk_classifier_ok sp); [|reflexivity]. destruct H as [H|[H|[H|H]]]; [lia..|discriminate].
Qed.
(* what a fit keeps: the weights that training returns when it starts from fresh layers and sees the powers and the features *)
Lemma fit_inv sp seed d g st g' : fit sp seed d g = Ok (st, g') -> usable d /\ nt_powers st = ngcn_powers rsqrt tiny sp d /\ nt_n st = lenZ (nd_X d) /\ nt_c st = count_classes (nd_y d) /\ (1 <= nk_K sp)%Z /\ (1 <= nk_r sp)%Z /\
  exists train r, nd_train d = Some train /\
    train_fullbatch ngcn_weights Op G (step (ngcn_powers rsqrt tiny sp d, nd_X d)) (val_loss (ngcn_powers rsqrt tiny sp d, nd_X d)) opt (count_classes (nd_y d)) (nd_y d) train (nd_val d)
      (nk_max_epochs sp) (nk_patience sp) (fst (init (nd_width d) (count_classes (nd_y d)) g)) (seeded seed) = Ok r /\ nt_w st = tr_weights r /\ g' = tr_gen r.
Proof.
  unfold ngcn_fit. destruct (Z.ltb_spec (nk_K sp) 1) as [|HK]; [discriminate|]. destruct (Z.ltb_spec (nk_r sp) 1) as [|Hr]; [discriminate|]. destruct (nk_layers sp <? 1)%Z; [discriminate|]. destruct (nk_classifier_ok sp); cbn [negb]; [|discriminate].
  destruct (prepare_data rsqrt tiny d false NormSym) as [p|e] eqn:Ep; cbn [bind]; [|discriminate]. apply prepare_ok in Ep as (Hu & train & Ht & ->). unfold prepared_of. cbn [pp_classes pp_y pp_train pp_val pp_X pp_n].
  destruct (init (nd_width d) (count_classes (nd_y d)) g) as [w g1] eqn:Ei. cbn [fst]. match goal with |- context [bind ?t _] => destruct t as [r|e] eqn:Er end; cbn [bind]; [|discriminate]. intros [= <- <-]. cbn [nt_powers nt_n nt_c nt_w].
  split; [exact Hu|]. split; [reflexivity|]. split; [reflexivity|]. split; [reflexivity|]. split; [exact HK|]. split; [exact Hr|]. exists train, r. split; [exact Ht|]. split; [exact Er|]. split; reflexivity.
Qed.
Theorem C142_training sp seed d g st g' : fit sp seed d g = Ok (st, g') ->
  exists train r, nd_train d = Some train /\
    train_fullbatch ngcn_weights Op G (step (nt_powers st, nd_X d)) (val_loss (nt_powers st, nd_X d)) opt (count_classes (nd_y d)) (nd_y d) train (nd_val d)
      (nk_max_epochs sp) (nk_patience sp) (fst (init (nd_width d) (count_classes (nd_y d)) g)) (seeded seed) = Ok r /\ nt_w st = tr_weights r /\ g' = tr_gen r.
Proof. intros H. apply fit_inv in H as (_ & -> & _ & _ & _ & _ & H). exact H. Qed.
(* K matrices: entry (i, j) of the k-th adds up all walks of k steps from i to j over the scaled ties *)
Theorem C142_powers sp seed d g st g' : fit sp seed d g = Ok (st, g') -> same_value rsqrt -> let n := List.length (nd_X d) in
  Z.of_nat (List.length (nt_powers st)) = nk_K sp /\
  forall k i j, (Z.of_nat k < nk_K sp)%Z -> (i < n)%nat -> (j < n)%nat ->
    entry (nth k (nt_powers st) []) i j == walk_weight n (scaled_tie rsqrt tiny (nk_sym sp) (nk_loops sp) n (weighted d)) k i j.
Proof.
  intros H Hr n. apply fit_inv in H as (_ & -> & _ & _ & HK & _). unfold ngcn_powers. cbv zeta. fold (weighted d). fold n. split; [rewrite powers_length; lia|]. intros k i j Hk Hi Hj. rewrite powers_nth by lia. apply power_walks; [|exact Hi|exact Hj].
  intros a b Ha Hb. now apply normalise_scaled.
Qed.
(* symmetrized: both directions weigh the same *)
Theorem C142_symmetric sp seed d g st g' : fit sp seed d g = Ok (st, g') -> same_value rsqrt -> nk_sym sp = true ->
  forall k i j, (Z.of_nat k < nk_K sp)%Z -> (i < List.length (nd_X d))%nat -> (j < List.length (nd_X d))%nat -> entry (nth k (nt_powers st) []) i j == entry (nth k (nt_powers st) []) j i.
Proof.
  intros H Hr Hs k i j Hk Hi Hj. destruct (C142_powers sp seed d g st g' H Hr) as [_ HP]. rewrite !HP by assumption. apply walk_symmetric; [|exact Hi|exact Hj]. intros a b _ _. rewrite Hs. apply scaled_symmetric.
Qed.
(* the same ties give the same fit: the order of the edges, loops among them and, when symmetrized, turning all of them round do not matter *)
Theorem C142_same_ties sp seed d edges w g : usable d -> usable (with_graph d edges w) ->
  (forall i j, tie (nk_sym sp) (nk_loops sp) (weighted d) i j == tie (nk_sym sp) (nk_loops sp) (weighted (with_graph d edges w)) i j) -> fit sp seed d g = fit sp seed (with_graph d edges w) g.
Proof.
  intros Hu Hu' HT. assert (HP := powers_same rsqrt tiny sp d (with_graph d edges w) eq_refl HT).
  unfold ngcn_fit. destruct (nk_K sp <? 1)%Z; [reflexivity|]. destruct (nk_r sp <? 1)%Z; [reflexivity|]. destruct (nk_layers sp <? 1)%Z; [reflexivity|]. destruct (negb (nk_classifier_ok sp)); [reflexivity|].
  destruct Hu as (h1 & h2 & h3 & (train & Ht) & h4). assert (E1 : prepare_data rsqrt tiny d false NormSym = Ok (prepared_of rsqrt tiny d false NormSym train)) by (apply prepare_ok; split; [repeat (split; [first [assumption|now exists train]|]); exact h4|now exists train]).
  assert (E2 : prepare_data rsqrt tiny (with_graph d edges w) false NormSym = Ok (prepared_of rsqrt tiny (with_graph d edges w) false NormSym train)) by (apply prepare_ok; split; [exact Hu'|now exists train]).
  rewrite E1, E2. cbn [bind]. rewrite HP. reflexivity.
Qed.
Theorem C142_graph sp seed d edges w g : usable d -> usable (with_graph d edges w) -> let E := weighted d in let E' := weighted (with_graph d edges w) in
  Permutation E' E \/ E' = filter (fun e => negb (e_src e =? e_dst e)%Z) E \/ (nk_sym sp = true /\ E' = map flip E) -> fit sp seed d g = fit sp seed (with_graph d edges w) g.
Proof.
  intros Hu Hu' E E' H. apply C142_same_ties; [exact Hu|exact Hu'|]. fold E. fold E'. intros i j. unfold tie. destruct (Nat.eqb_spec i j) as [_|Hij]; [reflexivity|].
  assert (HW : (forall a b, a <> b -> written E a b == written E' a b) \/ (nk_sym sp = true /\ forall a b, written E a b == written E' b a)).
  { destruct H as [H|[H|[Hs H]]].
    - left. intros a b _. unfold written. apply Qsum_perm, Permutation_map. apply Permutation_sym in H. revert H. generalize (fun e : edge => ((e_src e =? Z.of_nat a) && (e_dst e =? Z.of_nat b))%Z). intros f. clear. induction 1 as [|x l l' HP IH|x y l|l l' l'' H1 IH1 H2 IH2]; cbn [filter]; [constructor|destruct (f x); [now constructor|exact IH]|destruct (f x), (f y); try reflexivity; constructor|exact (Permutation_trans IH1 IH2)].
    - left. intros a b Hab. rewrite H. unfold written. clear H. induction E as [|e r IH]; [reflexivity|]. cbn [filter]. destruct (Z.eqb_spec (e_src e) (e_dst e)) as [He|He]; cbn [negb filter].
      + destruct ((e_src e =? Z.of_nat a) && (e_dst e =? Z.of_nat b))%Z eqn:Ee; [lia|exact IH].
      + destruct ((e_src e =? Z.of_nat a) && (e_dst e =? Z.of_nat b))%Z; cbn [map]; rewrite ?Qsum_cons, IH; reflexivity.
    - right. split; [exact Hs|]. intros a b. rewrite H. unfold written. clear H. induction E as [|e r IH]; [reflexivity|]. cbn [map filter]. change (e_src (flip e)) with (e_dst e). change (e_dst (flip e)) with (e_src e). rewrite (andb_comm (e_dst e =? Z.of_nat b)%Z).
      destruct ((e_src e =? Z.of_nat a) && (e_dst e =? Z.of_nat b))%Z; cbn [map]; rewrite ?Qsum_cons, IH; reflexivity. }
  destruct HW as [HW|[Hs HW]].
  - assert (H1 := HW i j Hij). assert (H2 := HW j i ltac:(congruence)). destruct (nk_sym sp); [|exact H1]. setoid_rewrite H1. setoid_rewrite H2. reflexivity.
  - rewrite Hs. assert (H1 := HW i j). assert (H2 := HW j i). setoid_rewrite H1. setoid_rewrite H2. apply Q.max_comm.
Qed.
(* with K = 1 the only matrix is the identity: the fit does not see the graph *)
Theorem C142_single_power sp seed d edges w g : usable d -> usable (with_graph d edges w) -> nk_K sp = 1%Z -> fit sp seed d g = fit sp seed (with_graph d edges w) g.
Proof.
  intros Hu Hu' HK. assert (HP : ngcn_powers rsqrt tiny sp d = ngcn_powers rsqrt tiny sp (with_graph d edges w)) by (unfold ngcn_powers; cbv zeta; rewrite HK; reflexivity).
  unfold ngcn_fit. rewrite HK. destruct (1 <? 1)%Z; [reflexivity|]. destruct (nk_r sp <? 1)%Z; [reflexivity|]. destruct (nk_layers sp <? 1)%Z; [reflexivity|]. destruct (negb (nk_classifier_ok sp)); [reflexivity|].
  destruct Hu as (h1 & h2 & h3 & (train & Ht) & h4). assert (E1 : prepare_data rsqrt tiny d false NormSym = Ok (prepared_of rsqrt tiny d false NormSym train)) by (apply prepare_ok; split; [repeat (split; [first [assumption|now exists train]|]); exact h4|now exists train]).
  assert (E2 : prepare_data rsqrt tiny (with_graph d edges w) false NormSym = Ok (prepared_of rsqrt tiny (with_graph d edges w) false NormSym train)) by (apply prepare_ok; split; [exact Hu'|now exists train]).
  rewrite E1, E2. cbn [bind]. rewrite HP. reflexivity.
Qed.

(* ---- predictions *)
Lemma predict_inv sp st d F : predict sp (Some st) d = Ok F -> usable d /\ nt_n st = lenZ (nd_X d) /\
  F = map softmax (ngcn_forward softmax (List.length (nd_X d)) (Z.to_nat (nt_c st)) (nt_powers st) (Z.to_nat (nk_K sp)) (Z.to_nat (nk_r sp)) (nt_w st) (nd_X d)).
Proof.
  unfold ngcn_predict. destruct (prepare_data rsqrt tiny d false NormSym) as [p|e] eqn:Ep; cbn [bind]; [|discriminate]. apply prepare_ok in Ep as (Hu & train & _ & ->). unfold prepared_of. cbn [pp_n pp_X]. destruct (Z.eqb_spec (lenZ (nd_X d)) (nt_n st)) as [Hn|Hn]; cbn [negb]; [|discriminate]. intros [= <-].
  split; [exact Hu|]. split; [now symmetry|]. rewrite <- Hn. unfold lenZ. now rewrite Nat2Z.id.
Qed.
(* only after a fit, and only for as many nodes *)
Theorem C142_predict_returns sp st d : (exists F, predict sp st d = Ok F) <-> exists t, st = Some t /\ usable d /\ nt_n t = lenZ (nd_X d).
Proof.
  split.
  - intros [F HF]. destruct st as [t|]; [|discriminate]. exists t. split; [reflexivity|]. apply predict_inv in HF as (Hu & Hn & _). now split.
  - intros (t & -> & Hu & Hn). destruct (proj2 (C104_returns rsqrt tiny d false NormSym) Hu) as [p Hp]. unfold ngcn_predict. rewrite Hp. cbn [bind]. apply prepare_ok in Hp as (_ & train & _ & ->). unfold prepared_of. cbn [pp_n]. rewrite Hn, Z.eqb_refl. cbn [negb]. eexists. reflexivity.
Qed.
(* the networks read the features of the data through the stored matrices; their rows are joined or averaged *)
Theorem C142_predict sp st d F : predict sp (Some st) d = Ok F -> let n := List.length (nd_X d) in let K := Z.to_nat (nk_K sp) in let r := Z.to_nat (nk_r sp) in
  (forall k q, (k < K)%nat -> (q < r)%nat -> nth (k * r + q) (ng_gcns (nt_w st)) [] <> []) ->
  (forall att, ng_head (nt_w st) = Attention att -> List.length (softmax att) = (K * r)%nat) ->
  List.length F = n /\
  exists V : nat -> nat -> nat -> list Q,
    (forall k q, (k < K)%nat -> (q < r)%nat -> network n (entry (nth k (nt_powers st) [])) (nth (k * r + q) (ng_gcns (nt_w st)) []) (fun i => nth i (nd_X d) []) (V k q)) /\
    forall i, (i < n)%nat -> nth i F [] = softmax
      (match ng_head (nt_w st) with
       | Fc fc => fc (concat (flat_map (fun k => map (fun q => V k q i) (seq 0 r)) (seq 0 K)))
       | Attention att => map (fun c => Qred (Qsum (map (fun k => Qsum (map (fun q => nth (k * r + q) (softmax att) 0 * nth c (V k q i) 0) (seq 0 r))) (seq 0 K)))) (seq 0 (Z.to_nat (nt_c st)))
       end).
Proof.
  intros H n K r HG HA. apply predict_inv in H as (_ & _ & ->). fold n K r. split; [rewrite map_length; apply forward_length|].
  exists (fun k q i => nth i (dense_gcn n (nth k (nt_powers st) []) (nth (k * r + q) (ng_gcns (nt_w st)) []) (nd_X d)) []). split; [intros k q Hk Hq; apply gcn_network; [now apply HG|reflexivity]|].
  intros i Hi. rewrite (nth_map_in softmax _ i []) by (rewrite forward_length; exact Hi). f_equal. rewrite forward_row by exact Hi. rewrite outputs_rows. destruct (ng_head (nt_w st)) as [fc|att] eqn:Eh; [reflexivity|]. specialize (HA att eq_refl).
  apply map_ext. intros c. apply Qred_complete. rewrite (combine_block (fun p : Q * list Q => fst p * nth c (snd p) 0) r K (softmax att) (fun k q => nth i (dense_gcn n (nth k (nt_powers st) []) (nth (k * r + q) (ng_gcns (nt_w st)) []) (nd_X d)) []) HA). reflexivity.
Qed.
(* the graph given to predict_proba plays no part: the graph of the fit is used *)
Theorem C142_predict_graph sp st d edges w : usable d -> usable (with_graph d edges w) -> predict sp (Some st) d = predict sp (Some st) (with_graph d edges w).
Proof.
  intros Hu Hu'. destruct Hu as (h1 & h2 & h3 & (train & Ht) & h4). assert (E1 : prepare_data rsqrt tiny d false NormSym = Ok (prepared_of rsqrt tiny d false NormSym train)) by (apply prepare_ok; split; [repeat (split; [first [assumption|now exists train]|]); exact h4|now exists train]).
  assert (E2 : prepare_data rsqrt tiny (with_graph d edges w) false NormSym = Ok (prepared_of rsqrt tiny (with_graph d edges w) false NormSym train)) by (apply prepare_ok; split; [exact Hu'|now exists train]).
  unfold ngcn_predict. rewrite E1, E2. reflexivity.
Qed.
(* the scores of a node depend only on the features of nodes within layers * (K - 1) links of the fitted graph *)
Theorem C142_local sp seed d g st g' d1 d2 F1 F2 L i : fit sp seed d g = Ok (st, g') -> predict sp (Some st) d1 = Ok F1 -> predict sp (Some st) d2 = Ok F2 ->
  (forall l, In l (ng_gcns (nt_w st)) -> (List.length l <= L)%nat) -> (i < List.length (nd_X d))%nat ->
  (forall j, (j < List.length (nd_X d))%nat -> nearby (nk_sym sp) (weighted d) (L * (Z.to_nat (nk_K sp) - 1)) i j -> nth j (nd_X d1) [] = nth j (nd_X d2) []) ->
  nth i F1 [] = nth i F2 [].
Proof.
  intros H H1 H2 HL Hi HX. apply fit_inv in H as (_ & HP & Hn & _ & HK & _ & _). apply predict_inv in H1 as (_ & Hn1 & ->). apply predict_inv in H2 as (_ & Hn2 & ->). set (n := List.length (nd_X d)) in *.
  assert (L1 : List.length (nd_X d1) = n) by (unfold lenZ, n in *; lia). assert (L2 : List.length (nd_X d2) = n) by (unfold lenZ, n in *; lia). rewrite L1, L2.
  rewrite !(nth_map_in softmax _ i []) by (rewrite forward_length; exact Hi). f_equal. rewrite !forward_row by exact Hi.
  assert (HO : map (fun o : mat => nth i o []) (ngcn_outputs n (nt_powers st) (Z.to_nat (nk_K sp)) (Z.to_nat (nk_r sp)) (ng_gcns (nt_w st)) (nd_X d1)) = map (fun o : mat => nth i o []) (ngcn_outputs n (nt_powers st) (Z.to_nat (nk_K sp)) (Z.to_nat (nk_r sp)) (ng_gcns (nt_w st)) (nd_X d2))).
  { rewrite !outputs_rows. rewrite !flat_map_concat_map. f_equal. apply map_ext_in. intros k Hk. apply in_seq in Hk. apply map_ext. intros q. rewrite HP. unfold ngcn_powers. cbv zeta. fold (weighted d). fold n. rewrite powers_nth by lia.
    apply (gcn_local (nk_sym sp) (weighted d) n k); [apply short_power|exact L1|exact L2|exact Hi|]. intros j Hj HN. apply HX; [exact Hj|]. apply (nearby_more _ _ _ _ _ HN).
    assert (HLL : (List.length (nth (k * Z.to_nat (nk_r sp) + q) (ng_gcns (nt_w st)) []) <= L)%nat) by (destruct (nth_in_or_default (k * Z.to_nat (nk_r sp) + q) (ng_gcns (nt_w st)) []) as [Hin|Hin]; [now apply HL|rewrite Hin; cbn; lia]). nia. }
  destruct (ng_head (nt_w st)); rewrite HO; reflexivity.
Qed.
End C142.

(* ---- a concrete fit *)
Definition ng_data (edges : list (Z * Z)) : node_data :=
  {| nd_X := [[1]; [2]; [4]]; nd_width := 1; nd_y := [0; 1; 0]%Z; nd_edges := edges; nd_weight := None; nd_train := Some [true; true; false]; nd_val := None; nd_test := None; nd_unlabeled := None |}.
Definition ng_layers : list layer := [(1%nat, fun v => [nth 0 v 0; 1])].
Definition ng_net : ngcn_weights := {| ng_gcns := repeat ng_layers 4; ng_head := Fc (fun v => firstn 2 v) |}.
Definition ng_att : ngcn_weights := {| ng_gcns := repeat ng_layers 4; ng_head := Attention [1; 1; 1; 1] |}.
Definition ng_spec (K : Z) (sym : bool) : ngcn_spec := {| nk_K := K; nk_r := 2; nk_layers := 1; nk_classifier_ok := true; nk_loops := true; nk_sym := sym; nk_max_epochs := 1; nk_patience := 1 |}.
Definition ng_fit (w : ngcn_weights) (K : Z) (sym : bool) (edges : list (Z * Z)) :=
  ngcn_fit unit unit ex_rsqrt ex_tiny (fun _ _ g => (w, g)) (fun _ => tt) (fun _ => tt) (fun _ w o g _ => (w, o, g)) (fun _ _ _ => None) (ng_spec K sym) 0 (ng_data edges) tt.
Definition fitted (r : result (ngcn_state * unit)) : ngcn_state := match r with Ok (st, _) => st | Err _ => {| nt_w := ng_net; nt_powers := []; nt_n := 0; nt_c := 0 |} end.
Definition ng_even (v : list Q) : list Q := map (fun _ => 1 / inject_Z (lenZ v)) v.
Lemma ng_usable : forall edges, (forall e, In e edges -> (0 <= fst e < 3)%Z /\ (0 <= snd e < 3)%Z) -> usable (ng_data edges).
Proof.
  intros edges H. split; [reflexivity|]. split; [intros c b [<-|[<-|[<-|[]]]] Hb; cbn; lia|]. split; [exact H|]. split; [eexists; reflexivity|]. split; [|exact I]. intros m [Hm|[Hm|[Hm|Hm]]]; try discriminate Hm. injection Hm as <-. reflexivity.
Qed.
Example C142_hypotheses :
  same_value ex_rsqrt /\ usable (ng_data [(0, 1); (1, 2); (1, 1)]%Z) /\
  (exists st, ng_fit ng_net 2 true [(0, 1); (1, 2); (1, 1)]%Z = Ok (st, tt) /\ map Qred (concat (nth 1 (nt_powers st) [])) = [1 # 9; 1 # 12; 0; 1 # 12; 1 # 16; 1 # 12; 0; 1 # 12; 1 # 9]) /\
  (exists F, ngcn_predict ex_rsqrt ex_tiny ng_even (ng_spec 2 true) (Some (fitted (ng_fit ng_att 2 true [(0, 1)]%Z))) (ng_data [(0, 2)]%Z) = Ok F) /\
  List.length (ng_even [1; 1; 1; 1]) = 4%nat /\
  nearby true [(0%Z, 1%Z, 1); (1%Z, 2%Z, 1)] 2 2 0 /\
  usable (with_graph (ng_data [(0, 1); (1, 2); (1, 1)]%Z) [(1, 0); (2, 1); (1, 1)]%Z None) /\ weighted (with_graph (ng_data [(0, 1); (1, 2); (1, 1)]%Z) [(1, 0); (2, 1); (1, 1)]%Z None) = map flip (weighted (ng_data [(0, 1); (1, 2); (1, 1)]%Z)).
Proof.
  split; [intros x y H; unfold ex_rsqrt; rewrite H; reflexivity|]. split; [apply ng_usable; intros e [<-|[<-|[<-|[]]]]; cbn; lia|]. split; [eexists; split; vm_compute; reflexivity|]. split; [eexists; vm_compute; reflexivity|]. split; [reflexivity|].
  split; [|split; [apply (ng_usable [(1, 0); (2, 1); (1, 1)]%Z); intros e [<-|[<-|[<-|[]]]]; cbn; lia|reflexivity]].
  apply (nearby_link _ _ 1 2 1 0 (1%Z, 2%Z, 1)); [right; now left|right; split; [reflexivity|split; reflexivity]|]. apply (nearby_link _ _ 0 1 0 0 (0%Z, 1%Z, 1)); [now left|right; split; [reflexivity|split; reflexivity]|constructor].
Qed.
(* symmetrized, the way an undirected link is written does matter when it is written twice: mentions add up in one direction only *)
Theorem C142_mentions_refuted : usable (ng_data [(0, 1); (0, 1)]%Z) /\ usable (ng_data [(0, 1); (1, 0)]%Z) /\
  written (weighted (ng_data [(0, 1); (0, 1)]%Z)) 0 1 + written (weighted (ng_data [(0, 1); (0, 1)]%Z)) 1 0 == written (weighted (ng_data [(0, 1); (1, 0)]%Z)) 0 1 + written (weighted (ng_data [(0, 1); (1, 0)]%Z)) 1 0 /\
  ~ tie true true (weighted (ng_data [(0, 1); (0, 1)]%Z)) 0 1 == tie true true (weighted (ng_data [(0, 1); (1, 0)]%Z)) 0 1 /\
  ~ entry (nth 1 (nt_powers (fitted (ng_fit ng_net 2 true [(0, 1); (0, 1)]%Z))) []) 0 1 == entry (nth 1 (nt_powers (fitted (ng_fit ng_net 2 true [(0, 1); (1, 0)]%Z))) []) 0 1.
Proof.
  split; [apply ng_usable; intros e [<-|[<-|[]]]; cbn; lia|]. split; [apply ng_usable; intros e [<-|[<-|[]]]; cbn; lia|]. split; [vm_compute; reflexivity|]. split; vm_compute; discriminate.
Qed.
(* not symmetrized, a node reads the nodes it points to, against the edges; the other graph networks of the package read along them *)
Theorem C142_direction_refuted : let d := ng_data [(0, 1)]%Z in usable d /\
  0 < entry (nth 1 (nt_powers (fitted (ng_fit ng_net 2 false [(0, 1)]%Z))) []) 0 1 /\ entry (nth 1 (nt_powers (fitted (ng_fit ng_net 2 false [(0, 1)]%Z))) []) 1 0 == 0 /\
  exists p, prepare_data ex_rsqrt ex_tiny d true NormSym = Ok p /\ 0 < weight_from (pp_E p) 1 0 /\ weight_from (pp_E p) 0 1 == 0.
Proof.
  cbv zeta. split; [apply ng_usable; intros e [<-|[]]; cbn; lia|]. split; [vm_compute; reflexivity|]. split; [vm_compute; reflexivity|]. eexists. split; [vm_compute; reflexivity|]. split; vm_compute; reflexivity.
Qed.

Print Assumptions C142_returns.
Print Assumptions C142_rejects.
Print Assumptions C142_training.
Print Assumptions C142_powers.
Print Assumptions C142_symmetric.
Print Assumptions C142_same_ties.
Print Assumptions C142_graph.
Print Assumptions C142_single_power.
Print Assumptions C142_predict_returns.
Print Assumptions C142_predict.
Print Assumptions C142_predict_graph.
Print Assumptions C142_local.
Print Assumptions C142_mentions_refuted.
Print Assumptions C142_direction_refuted.
