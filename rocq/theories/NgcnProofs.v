From Coq Require Import QArith Qminmax Lqa ZifyBool ZifyNat.
From Verif Require Import Prelude QFacts TransModel TransProofs GnnModel GnnSpec GnnTrainProofs NgcnModel NgcnSpec.
Local Open Scope Q_scope.
Local Open Scope list_scope.

(* ---- the adjacency matrix *)
Lemma add_edge_at A e i j : i <> j -> add_edge A e i j == A i j + (if ((e_src e =? Z.of_nat i) && (e_dst e =? Z.of_nat j))%Z then e_w e else 0).
Proof.
  intros Hij. unfold add_edge. destruct (Z.eqb_spec (e_src e) (e_dst e)) as [He|He].
  - destruct ((e_src e =? Z.of_nat i) && (e_dst e =? Z.of_nat j))%Z eqn:E; [lia|ring].
  - rewrite (Z.eqb_sym (Z.of_nat i)), (Z.eqb_sym (Z.of_nat j)). destruct ((e_src e =? Z.of_nat i) && (e_dst e =? Z.of_nat j))%Z; [reflexivity|ring].
Qed.
Lemma add_edge_diag A e i : add_edge A e i i = A i i.
Proof. unfold add_edge. destruct (Z.eqb_spec (e_src e) (e_dst e)) as [He|He]; [reflexivity|]. destruct ((Z.of_nat i =? e_src e) && (Z.of_nat i =? e_dst e))%Z eqn:E; [lia|reflexivity]. Qed.
Lemma fold_edges E : forall A i j, i <> j -> fold_left add_edge E A i j == A i j + written E i j.
Proof.
  induction E as [|e E IH]; intros A i j Hij; cbn [fold_left].
  - unfold written. cbn [filter map]. rewrite Qsum_nil. ring.
  - rewrite IH by exact Hij. rewrite (add_edge_at A e i j Hij). unfold written. cbn [filter]. destruct ((e_src e =? Z.of_nat i) && (e_dst e =? Z.of_nat j))%Z; cbn [map]; rewrite ?Qsum_cons; ring.
Qed.
Lemma fold_edges_diag E : forall A i, fold_left add_edge E A i i = A i i.
Proof. induction E as [|e E IH]; intros A i; [reflexivity|]. cbn [fold_left]. rewrite IH. apply add_edge_diag. Qed.
Lemma build_tie sym loops E i j : build_adjacency sym loops E i j == tie sym loops E i j.
Proof.
  unfold build_adjacency, tie. cbv zeta. set (A := fold_left add_edge E (fun _ _ => 0)). destruct (Nat.eqb_spec i j) as [<-|Hij].
  - assert (HA : A i i = 0) by (unfold A; rewrite fold_edges_diag; reflexivity). destruct sym, loops; rewrite ?Nat.eqb_refl, ?HA; reflexivity.
  - assert (H1 : A i j == written E i j) by (unfold A; rewrite fold_edges by exact Hij; ring). assert (H2 : A j i == written E j i) by (unfold A; rewrite fold_edges by congruence; ring).
    destruct sym, loops; rewrite ?(proj2 (Nat.eqb_neq i j) Hij), ?H1, ?H2; try ring; rewrite Qplus_0_r; reflexivity.
Qed.
Lemma Qmax_same a b c : a == b -> Qmax a c == Qmax b c. Proof. intros H. rewrite H. reflexivity. Qed.
Lemma normalise_entry rsqrt tiny n A i j : (i < n)%nat -> (j < n)%nat -> entry (normalise_adjacency rsqrt tiny n A) i j =
  Qred (rsqrt (Qred (Qmax (Qsum (map (A i) (seq 0 n))) tiny)) * A i j * rsqrt (Qred (Qmax (Qsum (map (A j) (seq 0 n))) tiny))).
Proof. intros Hi Hj. unfold normalise_adjacency. cbv zeta. rewrite entry_tabulate by assumption. reflexivity. Qed.
Lemma normalise_scaled rsqrt tiny sym loops n E i j : same_value rsqrt -> (i < n)%nat -> (j < n)%nat ->
  entry (normalise_adjacency rsqrt tiny n (build_adjacency sym loops E)) i j == scaled_tie rsqrt tiny sym loops n E i j.
Proof.
  intros Hr Hi Hj. rewrite normalise_entry by assumption. rewrite Qred_correct. unfold scaled_tie. cbv zeta.
  assert (HT : forall a, rsqrt (Qred (Qmax (Qsum (map (build_adjacency sym loops E a) (seq 0 n))) tiny)) == rsqrt (Qmax (Qsum (map (tie sym loops E a) (seq 0 n))) tiny)).
  { intros a. apply Hr. rewrite Qred_correct. apply Qmax_same, Qsum_ext. intros b _. apply build_tie. }
  rewrite (HT i), (HT j), (build_tie sym loops E i j). reflexivity.
Qed.
Lemma tabulate_same n k f g : (forall i c, (i < n)%nat -> (c < k)%nat -> f i c = g i c) -> tabulate n k f = tabulate n k g.
Proof. intros H. unfold tabulate. apply map_ext_in. intros i Hi. apply in_seq in Hi. apply map_ext_in. intros c Hc. apply in_seq in Hc. apply H; lia. Qed.
Lemma normalise_same rsqrt tiny n A B : (forall i j, A i j == B i j) -> normalise_adjacency rsqrt tiny n A = normalise_adjacency rsqrt tiny n B.
Proof.
  intros H. assert (HS : forall i, Qred (Qmax (Qsum (map (A i) (seq 0 n))) tiny) = Qred (Qmax (Qsum (map (B i) (seq 0 n))) tiny)).
  { intros i. apply Qred_complete, Qmax_same, Qsum_ext. intros j _. apply H. }
  unfold normalise_adjacency. cbv zeta. apply tabulate_same. intros i j _ _. rewrite (HS i), (HS j). apply Qred_complete. rewrite (H i j). reflexivity.
Qed.

(* ---- powers *)
Lemma last_other {A} (v : list A) b a c : last (b :: v) a = last (b :: v) c.
Proof. revert b. induction v as [|x v IH]; intros b; [reflexivity|]. exact (IH x). Qed.
Lemma last_cons {A} (v : list A) a i : last (a :: v) i = last v a.
Proof. destruct v as [|b v]; [reflexivity|]. exact (last_other v b i a). Qed.
Lemma walk_step n W k i j : walk_weight n W (S k) i j == Qsum (map (fun a => W i a * walk_weight n W k a j) (seq 0 n)).
Proof.
  unfold walk_weight. cbn [visits]. generalize (seq 0 n). intros l. induction l as [|a l IH]; [reflexivity|]. cbn [flat_map]. rewrite filter_app, map_app, Qsum_app, IH. cbn [map]. rewrite Qsum_cons.
  apply Qplus_comp; [|reflexivity]. clear IH. rewrite <- Qsum_scale. induction (visits n k) as [|v V IH]; [reflexivity|]. cbn [map filter].
  rewrite (last_cons v a i).
  destruct (Nat.eqb (last v a) j); cbn [map]; rewrite ?Qsum_cons, IH; [cbn [along]; reflexivity|reflexivity].
Qed.
Lemma powers_length n A K : forall P, length (adj_powers n A P K) = K.
Proof. induction K as [|K IH]; intros P; [reflexivity|]. cbn [adj_powers length]. now rewrite IH. Qed.
Lemma powers_nth n A K : forall P k, (k < K)%nat -> nth k (adj_powers n A P K) [] = Nat.iter k (dmm n n A) P.
Proof.
  induction K as [|K IH]; intros P k Hk; [lia|]. cbn [adj_powers]. destruct k as [|k]; [reflexivity|]. cbn [nth]. rewrite IH by lia. clear. induction k as [|k IH]; [reflexivity|]. cbn [Nat.iter nat_rect] in *. unfold Nat.iter in *. cbn [nat_rect] in *. now rewrite IH.
Qed.
Lemma dmm_entry n d A X i c : (i < n)%nat -> (c < d)%nat -> entry (dmm n d A X) i c = Qred (Qsum (map (fun j => entry A i j * entry X j c) (seq 0 n))).
Proof. intros Hi Hc. unfold dmm. now rewrite entry_tabulate by assumption. Qed.
Lemma power_walks n A W k : (forall i j, (i < n)%nat -> (j < n)%nat -> entry A i j == W i j) ->
  forall i j, (i < n)%nat -> (j < n)%nat -> entry (Nat.iter k (dmm n n A) (eye n)) i j == walk_weight n W k i j.
Proof.
  intros HA. induction k as [|k IH]; intros i j Hi Hj.
  - cbn [Nat.iter nat_rect]. unfold eye. rewrite entry_tabulate by assumption. unfold walk_weight. cbn [visits filter last map]. destruct (Nat.eqb i j); cbn [map along]; reflexivity.
  - rewrite walk_step. change (Nat.iter (S k) (dmm n n A) (eye n)) with (dmm n n A (Nat.iter k (dmm n n A) (eye n))). rewrite dmm_entry by assumption. rewrite Qred_correct. apply Qsum_ext. intros a Ha. apply in_seq in Ha. rewrite HA, IH by lia. reflexivity.
Qed.

(* ---- locality *)
Lemma written_none E i j : (forall e, In e E -> ~ (e_src e = Z.of_nat i /\ e_dst e = Z.of_nat j)) -> written E i j = 0.
Proof.
  intros H. unfold written. replace (filter _ E) with (@nil edge); [reflexivity|]. symmetry. induction E as [|e E IH]; [reflexivity|]. cbn [filter]. destruct ((e_src e =? Z.of_nat i) && (e_dst e =? Z.of_nat j))%Z eqn:Ee; [exfalso; apply (H e (or_introl eq_refl)); lia|]. apply IH. intros e' He'. apply H. now right.
Qed.
Definition linked (sym : bool) (E : list edge) (i a : nat) : bool :=
  existsb (fun e => ((e_src e =? Z.of_nat i) && (e_dst e =? Z.of_nat a))%Z || (sym && ((e_src e =? Z.of_nat a) && (e_dst e =? Z.of_nat i))%Z)) E.
Lemma linked_true sym E i a : linked sym E i a = true -> exists e, In e E /\ ((e_src e = Z.of_nat i /\ e_dst e = Z.of_nat a) \/ (sym = true /\ e_src e = Z.of_nat a /\ e_dst e = Z.of_nat i)).
Proof. unfold linked. intros H. apply existsb_exists in H as (e & He & H). exists e. split; [exact He|]. destruct sym; lia. Qed.
Lemma linked_false sym E i a : linked sym E i a = false -> i <> a -> forall loops, tie sym loops E i a == 0.
Proof.
  intros H Hia loops. unfold tie. destruct (Nat.eqb_spec i a) as [->|_]; [congruence|].
  assert (HF : forall e, In e E -> ((e_src e =? Z.of_nat i) && (e_dst e =? Z.of_nat a))%Z || (sym && ((e_src e =? Z.of_nat a) && (e_dst e =? Z.of_nat i))%Z) = false).
  { intros e He. destruct (((e_src e =? Z.of_nat i) && (e_dst e =? Z.of_nat a))%Z || (sym && ((e_src e =? Z.of_nat a) && (e_dst e =? Z.of_nat i))%Z)) eqn:Ee; [|reflexivity]. exfalso. enough (linked sym E i a = true) by congruence. unfold linked. apply existsb_exists. exists e. now split. }
  assert (H1 : written E i a = 0) by (apply written_none; intros e He Hx; specialize (HF e He); destruct sym; lia). rewrite H1. destruct sym; [|reflexivity].
  assert (H2 : written E a i = 0) by (apply written_none; intros e He Hx; specialize (HF e He); lia). rewrite H2. reflexivity.
Qed.
(* a matrix that carries nothing further than r links *)
Definition short (sym : bool) (E : list edge) (n r : nat) (M : mat) : Prop := forall i j, (i < n)%nat -> (j < n)%nat -> entry M i j == 0 \/ nearby sym E r i j.
Lemma nearby_more sym E r i j : nearby sym E r i j -> forall r', (r <= r')%nat -> nearby sym E r' i j.
Proof. induction 1 as [r i|r i a j e He HL HN IH]; intros r' Hr; [constructor|]. destruct r' as [|r']; [lia|]. apply (nearby_link sym E r' i a j e He HL). apply IH. lia. Qed.
Lemma nearby_trans sym E r i j : nearby sym E r i j -> forall r' k, nearby sym E r' j k -> nearby sym E (r + r') i k.
Proof. induction 1 as [r i|r i a j e He HL HN IH]; intros r' k Hk; [apply (nearby_more sym E r'); [exact Hk|lia]|]. cbn [Nat.add]. apply (nearby_link sym E _ i a k e He HL). now apply IH. Qed.
Lemma short_one rsqrt tiny sym loops n E : short sym E n 1 (normalise_adjacency rsqrt tiny n (build_adjacency sym loops E)).
Proof.
  intros i j Hi Hj. destruct (Nat.eq_dec i j) as [<-|Hij]; [right; constructor|]. destruct (linked sym E i j) eqn:EL.
  - right. apply linked_true in EL as (e & He & HL). apply (nearby_link sym E 0 i j j e He HL). constructor.
  - left. rewrite normalise_entry by assumption. rewrite Qred_correct, build_tie, (linked_false sym E i j EL Hij loops). ring.
Qed.
Lemma short_eye sym E n : short sym E n 0 (eye n).
Proof. intros i j Hi Hj. unfold eye. rewrite entry_tabulate by assumption. destruct (Nat.eqb_spec i j) as [<-|H]; [right; constructor|now left]. Qed.
Lemma Qsum_nonzero {A} (f : A -> Q) l : Qsum (map f l) == 0 \/ exists x, In x l /\ ~ f x == 0.
Proof.
  induction l as [|a l [IH|(x & Hx & IH)]]; [now left| |right; exists x; split; [now right|exact IH]]. destruct (Qeq_dec (f a) 0) as [H|H]; [left; cbn [map]; rewrite Qsum_cons, H, IH; reflexivity|right; exists a; split; [now left|exact H]].
Qed.
Lemma short_mul sym E n r r' A P : short sym E n r A -> short sym E n r' P -> short sym E n (r + r') (dmm n n A P).
Proof.
  intros HA HP i j Hi Hj. rewrite dmm_entry by assumption. destruct (Qsum_nonzero (fun k => entry A i k * entry P k j) (seq 0 n)) as [H|(k & Hk & H)]; [left; rewrite Qred_correct; exact H|].
  right. apply in_seq in Hk. destruct (HA i k Hi ltac:(lia)) as [H1|H1]; [exfalso; apply H; rewrite H1; ring|]. destruct (HP k j ltac:(lia) Hj) as [H2|H2]; [exfalso; apply H; rewrite H2; ring|]. exact (nearby_trans _ _ _ _ _ H1 _ _ H2).
Qed.
Lemma short_power rsqrt tiny sym loops n E k : short sym E n k (Nat.iter k (dmm n n (normalise_adjacency rsqrt tiny n (build_adjacency sym loops E))) (eye n)).
Proof. induction k as [|k IH]; [apply short_eye|]. change (S k) with (1 + k)%nat. apply (short_mul sym E n 1 k); [apply short_one|exact IH]. Qed.
Lemma dmm_row n d A X i : (i < n)%nat -> nth i (dmm n d A X) [] = mixed n d (entry A) (fun j => nth j X []) i.
Proof. intros Hi. unfold dmm. rewrite row_tabulate by exact Hi. reflexivity. Qed.
Lemma dmm_length n d A X : length (dmm n d A X) = n.
Proof. unfold dmm, tabulate. now rewrite map_length, seq_length. Qed.
Lemma dmm_local sym E n r d P X X' i : short sym E n r P -> (i < n)%nat -> (forall j, (j < n)%nat -> nearby sym E r i j -> nth j X [] = nth j X' []) -> nth i (dmm n d P X) [] = nth i (dmm n d P X') [].
Proof.
  intros HP Hi HX. rewrite !dmm_row by exact Hi. unfold mixed. apply map_ext. intros c. apply Qred_complete, Qsum_ext. intros j Hj. apply in_seq in Hj. destruct (HP i j Hi ltac:(lia)) as [H|H]; [rewrite H; ring|]. rewrite (HX j ltac:(lia) H). reflexivity.
Qed.
Lemma gcn_local sym E n r P : short sym E n r P -> forall lins X X' i, length X = n -> length X' = n -> (i < n)%nat ->
  (forall j, (j < n)%nat -> nearby sym E (length lins * r) i j -> nth j X [] = nth j X' []) -> nth i (dense_gcn n P lins X) [] = nth i (dense_gcn n P lins X') [].
Proof.
  intros HP. induction lins as [|[d lin] lins IH]; intros X X' i HX HX' Hi H.
  - cbn [dense_gcn]. apply H; [exact Hi|constructor].
  - cbn [dense_gcn]. set (f := fun z : mat => match lins with [] => map lin z | _ => map (map relu) (map lin z) end).
    assert (Hf : forall z, length (f z) = length z) by (intros z; unfold f; destruct lins; now rewrite !map_length).
    assert (Hn : forall z z' j, length z = n -> length z' = n -> (j < n)%nat -> nth j z [] = nth j z' [] -> nth j (f z) [] = nth j (f z') []).
    { intros z z' j Hz Hz' Hj Hjz. unfold f. destruct lins; rewrite ?map_map, !(nth_map_in _ _ j []) by lia; now rewrite Hjz. }
    change (nth i (dense_gcn n P lins (f (dmm n d P X))) [] = nth i (dense_gcn n P lins (f (dmm n d P X'))) []).
    apply IH; [now rewrite Hf, dmm_length|now rewrite Hf, dmm_length|exact Hi|]. intros j Hj HN. apply Hn; [apply dmm_length|apply dmm_length|exact Hj|]. apply (dmm_local sym E n r); [exact HP|exact Hj|]. intros k Hk HNk. apply H; [exact Hk|]. cbn [length Nat.mul].
    replace (r + length lins * r)%nat with (length lins * r + r)%nat by lia. exact (nearby_trans _ _ _ _ _ HN _ _ HNk).
Qed.
Lemma gcn_length n P lins : forall X, length X = n -> length (dense_gcn n P lins X) = n.
Proof. induction lins as [|[d lin] lins IH]; intros X HX; [exact HX|]. cbn [dense_gcn]. apply IH. destruct lins; now rewrite !map_length, dmm_length. Qed.

(* ---- networks *)
Lemma network_ext n P lins H V : network n P lins H V -> forall V', (forall i, (i < n)%nat -> V' i = V i) -> network n P lins H V'.
Proof. induction 1 as [d lin H V HV|d lin l r H H' V HH HN IH]; intros V' HE; [constructor; intros i Hi; rewrite HE by exact Hi; now apply HV|]. econstructor; [exact HH|]. now apply IH. Qed.
Lemma gcn_network n P lins : lins <> [] -> forall X, length X = n -> network n (entry P) lins (fun i => nth i X []) (fun i => nth i (dense_gcn n P lins X) []).
Proof.
  induction lins as [|[d lin] lins IH]; intros Hne X HX; [congruence|]. cbn [dense_gcn]. destruct lins as [|l lins].
  - constructor. intros i Hi. cbn [dense_gcn]. rewrite (nth_map_in lin _ i []) by now rewrite dmm_length. now rewrite dmm_row.
  - apply (network_more n (entry P) d lin l lins _ (fun i => nth i (map (map relu) (map lin (dmm n d P X))) [])).
    + intros i Hi. rewrite (nth_map_in _ _ i []) by (rewrite map_length, dmm_length; exact Hi). rewrite (nth_map_in _ _ i []) by (rewrite dmm_length; exact Hi). rewrite dmm_row by exact Hi. reflexivity.
    + apply IH; [discriminate|]. now rewrite !map_length, dmm_length.
Qed.

(* ---- symmetric weights *)
Lemma walk_step_end n W k : forall i j, (i < n)%nat -> (j < n)%nat -> walk_weight n W (S k) i j == Qsum (map (fun a => walk_weight n W k i a * W a j) (seq 0 n)).
Proof.
  assert (H0 : forall (f : nat -> Q) j, (j < n)%nat -> Qsum (map (fun a => f a * walk_weight n W 0 a j) (seq 0 n)) == f j).
  { intros f j Hj. transitivity (Qsum (map (fun a => if Nat.eqb a j then f j else 0) (seq 0 n))).
    - apply Qsum_ext. intros a _. unfold walk_weight. cbn [visits filter last]. destruct (Nat.eqb_spec a j) as [->|_]; cbn [map along]; rewrite ?Qsum_cons, ?Qsum_nil; ring.
    - assert (HG : forall m s, (s <= j < s + m)%nat -> Qsum (map (fun a => if Nat.eqb a j then f j else 0) (seq s m)) == f j); [|apply HG; lia].
      induction m as [|m IH]; intros s Hs; [lia|]. cbn [seq map]. rewrite Qsum_cons. destruct (Nat.eqb_spec s j) as [->|Hsj].
      + rewrite Qsum_zero; [ring|]. intros a Ha. apply in_seq in Ha. destruct (Nat.eqb_spec a j); [lia|reflexivity].
      + rewrite IH by lia. ring. }
  assert (H1 : forall (f : nat -> Q) i, (i < n)%nat -> Qsum (map (fun a => walk_weight n W 0 i a * f a) (seq 0 n)) == f i).
  { intros f i Hi. rewrite <- (H0 f i Hi). apply Qsum_ext. intros a _. unfold walk_weight. cbn [visits filter last]. rewrite (Nat.eqb_sym i a). destruct (Nat.eqb a i); cbn [map along]; ring. }
  induction k as [|k IH]; intros i j Hi Hj.
  - rewrite walk_step, (H0 (W i) j Hj), (H1 (fun a => W a j) i Hi). reflexivity.
  - rewrite walk_step. transitivity (Qsum (map (fun b => Qsum (map (fun a => W i b * (walk_weight n W k b a * W a j)) (seq 0 n))) (seq 0 n))).
    + apply Qsum_ext. intros b Hb. apply in_seq in Hb. rewrite IH by lia. now rewrite Qsum_scale.
    + rewrite Qsum_swap. apply Qsum_ext. intros a Ha. apply in_seq in Ha. rewrite walk_step, <- Qsum_scale_r. apply Qsum_ext. intros b _. ring.
Qed.
Lemma walk_symmetric n W : (forall i j, (i < n)%nat -> (j < n)%nat -> W i j == W j i) -> forall k i j, (i < n)%nat -> (j < n)%nat -> walk_weight n W k i j == walk_weight n W k j i.
Proof.
  intros HW. induction k as [|k IH]; intros i j Hi Hj.
  - unfold walk_weight. cbn [visits filter last]. rewrite (Nat.eqb_sym j i). destruct (Nat.eqb i j); reflexivity.
  - rewrite walk_step, walk_step_end by assumption. apply Qsum_ext. intros a Ha. apply in_seq in Ha. rewrite (HW i a), (IH a j) by lia. ring.
Qed.
Lemma scaled_symmetric rsqrt tiny loops n E i j : scaled_tie rsqrt tiny true loops n E i j == scaled_tie rsqrt tiny true loops n E j i.
Proof.
  assert (HT : tie true loops E i j == tie true loops E j i) by (unfold tie; rewrite (Nat.eqb_sym j i); destruct (Nat.eqb i j); [reflexivity|apply Q.max_comm]). unfold scaled_tie. cbv zeta. rewrite HT. ring.
Qed.
(* ---- blocks of outputs *)
Lemma combine_apps {A B} (a a' : list A) : forall (b b' : list B), length a = length b -> combine (a ++ a') (b ++ b') = combine a b ++ combine a' b'.
Proof. induction a as [|x a IH]; intros [|y b] b' H; try discriminate; [reflexivity|]. cbn [combine app]. f_equal. apply IH. now injection H. Qed.
Lemma combine_block {A} (f : Q * A -> Q) r K : forall (ws : list Q) (F : nat -> nat -> A), length ws = (K * r)%nat ->
  Qsum (map f (combine ws (flat_map (fun k => map (F k) (seq 0 r)) (seq 0 K)))) == Qsum (map (fun k => Qsum (map (fun q => f (nth (k * r + q) ws 0, F k q)) (seq 0 r))) (seq 0 K)).
Proof.
  assert (HC : forall (a : list Q) (g : nat -> A) s m, length a = m -> map f (combine a (map g (seq s m))) = map (fun q => f (nth (q - s) a 0, g q)) (seq s m)).
  { intros a g s m. revert a s. induction m as [|m IH]; intros a s Ha; [destruct a; [reflexivity|discriminate]|]. destruct a as [|x a]; [discriminate|]. injection Ha as Ha. cbn [seq map combine]. f_equal; [now rewrite Nat.sub_diag|]. rewrite IH by exact Ha. apply map_ext_in. intros q Hq. apply in_seq in Hq. replace (q - s)%nat with (S (q - S s)) by lia. reflexivity. }
  induction K as [|K IH]; intros ws F Hws; [destruct ws; [reflexivity|discriminate]|]. cbn [Nat.mul] in Hws. rewrite <- cons_seq, <- seq_shift. cbn [flat_map map]. rewrite Qsum_cons.
  rewrite <- (firstn_skipn r ws) at 1. rewrite combine_apps by (rewrite map_length, seq_length, firstn_length; lia). rewrite map_app, Qsum_app. apply Qplus_comp.
  - rewrite HC by (rewrite firstn_length; lia). apply Qsum_ext. intros q Hq. apply in_seq in Hq. cbn [Nat.mul Nat.add]. rewrite Nat.sub_0_r. rewrite <- (firstn_skipn r ws) at 2. rewrite app_nth1 by (rewrite firstn_length; lia). reflexivity.
  - rewrite flat_map_concat_map, !map_map, <- flat_map_concat_map. rewrite (IH (skipn r ws) (fun k => F (S k))) by (rewrite skipn_length; lia). apply Qsum_ext. intros k _. apply Qsum_ext. intros q _.
    rewrite <- (firstn_skipn r ws) at 2. rewrite app_nth2 by (rewrite firstn_length; nia). rewrite firstn_length. replace (S k * r + q - Nat.min r (length ws))%nat with (k * r + q)%nat by nia. reflexivity.
Qed.
Lemma outputs_rows n powers K r gcns X i : map (fun o : mat => nth i o []) (ngcn_outputs n powers K r gcns X) =
  flat_map (fun k => map (fun q => nth i (dense_gcn n (nth k powers []) (nth (k * r + q) gcns []) X) []) (seq 0 r)) (seq 0 K).
Proof. unfold ngcn_outputs. rewrite !flat_map_concat_map, concat_map, map_map. f_equal. apply map_ext. intros k. now rewrite map_map. Qed.
Lemma forward_length softmax n c powers K r w X : length (ngcn_forward softmax n c powers K r w X) = n.
Proof. unfold ngcn_forward. destruct (ng_head w); [now rewrite map_length, seq_length|]. unfold tabulate. now rewrite map_length, seq_length. Qed.
Lemma forward_row softmax n c powers K r w X i : (i < n)%nat -> nth i (ngcn_forward softmax n c powers K r w X) [] =
  match ng_head w with
  | Fc fc => fc (concat (map (fun o : mat => nth i o []) (ngcn_outputs n powers K r (ng_gcns w) X)))
  | Attention att => map (fun j => Qred (Qsum (map (fun p : Q * list Q => fst p * nth j (snd p) 0) (combine (softmax att) (map (fun o : mat => nth i o []) (ngcn_outputs n powers K r (ng_gcns w) X)))))) (seq 0 c)
  end.
Proof.
  intros Hi. unfold ngcn_forward. cbv zeta. destruct (ng_head w) as [fc|att].
  - rewrite (nth_map_in _ _ i O) by (rewrite seq_length; exact Hi). now rewrite seq_nth by exact Hi.
  - rewrite row_tabulate by exact Hi. apply map_ext. intros j. f_equal. f_equal. generalize (softmax att). generalize (ngcn_outputs n powers K r (ng_gcns w) X). induction l as [|o l IH]; intros [|a ws]; [reflexivity..|]. cbn [map combine fst snd]. f_equal. apply IH.
Qed.
Lemma powers_same rsqrt tiny sp d d' : length (nd_X d) = length (nd_X d') -> (forall i j, tie (nk_sym sp) (nk_loops sp) (weighted d) i j == tie (nk_sym sp) (nk_loops sp) (weighted d') i j) -> ngcn_powers rsqrt tiny sp d = ngcn_powers rsqrt tiny sp d'.
Proof.
  intros HX H. unfold ngcn_powers. cbv zeta. fold (weighted d) (weighted d'). rewrite HX. f_equal. apply normalise_same. intros i j. rewrite !build_tie. apply H.
Qed.
