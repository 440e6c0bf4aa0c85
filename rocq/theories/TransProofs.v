(* Proofs about label propagation, label spreading, the fixed-point solver. *)
From Coq Require Import QArith Qminmax Qabs ZifyBool ZifyNat.
From Verif Require Import Prelude ListFacts SampleServiceProofs QFacts TransModel TransSpec.
Local Open Scope Q_scope.
Local Open Scope list_scope.

(* ---------------------------------------------------------------- lists and matrices *)
Lemma nth_map_in {A B} (f : A -> B) l i da db : (i < List.length l)%nat -> nth i (map f l) db = f (nth i l da).
Proof. intros H. rewrite (nth_indep (map f l) db (f da)) by (rewrite map_length; exact H). apply map_nth. Qed.
Lemma nth_map_combine {A B C} (f : A * B -> C) a b i da db dc : List.length a = List.length b -> (i < List.length a)%nat ->
  nth i (map f (combine a b)) dc = f (nth i a da, nth i b db).
Proof. intros Hl Hi. rewrite (nth_map_in f _ i (da, db)) by (rewrite combine_length; lia). rewrite combine_nth by exact Hl. reflexivity. Qed.
Lemma Qmult_le_lnn a b c : 0 <= a -> b <= c -> a * b <= a * c.
Proof. intros Ha Hb. rewrite (Qmult_comm a b), (Qmult_comm a c). apply Qmult_le_compat_r; assumption. Qed.
Definition shape (n k : nat) (F : mat) : Prop := List.length F = n /\ forall r, In r F -> List.length r = k.
Lemma shape_row n k F i : shape n k F -> (i < n)%nat -> List.length (nth i F []) = k.
Proof. intros [H1 H2] Hi. apply H2, nth_In. lia. Qed.
Lemma shape_tabulate n k f : shape n k (tabulate n k f).
Proof. unfold tabulate. split; [rewrite map_length, seq_length; reflexivity|]. intros r Hr. apply in_map_iff in Hr as (i & <- & _). rewrite map_length, seq_length. reflexivity. Qed.
Lemma row_tabulate n k f i : (i < n)%nat -> nth i (tabulate n k f) [] = map (f i) (seq 0 k).
Proof. intros Hi. unfold tabulate. rewrite (nth_map_in _ _ i O) by (rewrite seq_length; exact Hi). rewrite seq_nth by exact Hi. reflexivity. Qed.
Lemma entry_tabulate n k f i c : (i < n)%nat -> (c < k)%nat -> entry (tabulate n k f) i c = f i c.
Proof. intros Hi Hc. unfold entry. rewrite row_tabulate by exact Hi. rewrite (nth_map_in _ _ c O) by (rewrite seq_length; exact Hc). rewrite seq_nth by exact Hc. reflexivity. Qed.
Lemma list_as_map (l : list Q) k : List.length l = k -> l = map (fun c => nth c l 0) (seq 0 k).
Proof. intros <-. symmetry. apply map_nth_seq. Qed.
Lemma row_sum_entries n k F i : shape n k F -> (i < n)%nat -> row_sum F i = sum_classes k (entry F i).
Proof. intros Hs Hi. unfold row_sum, sum_classes, entry. rewrite <- (list_as_map _ k); [reflexivity|]. eapply shape_row; eauto. Qed.

Lemma clamp_row mask Y F n i : List.length mask = n -> List.length Y = n -> List.length F = n -> (i < n)%nat ->
  nth i (clamp mask Y F) [] = if nth i mask false then nth i Y [] else nth i F [].
Proof.
  intros H1 H2 H3 Hi. unfold clamp. rewrite (nth_map_combine _ _ _ i false ([], [])) by (rewrite ?combine_length; lia). cbn [fst snd]. rewrite combine_nth by lia. reflexivity.
Qed.
Lemma clamp_shape mask Y F n k : List.length mask = n -> shape n k Y -> shape n k F -> shape n k (clamp mask Y F).
Proof.
  intros H1 HY HF. assert (HYl := proj1 HY). assert (HFl := proj1 HF). split; [unfold clamp; rewrite map_length, !combine_length; lia|].
  intros r Hr. apply (In_nth _ _ []) in Hr as (i & Hi & <-). assert (Hi' : (i < n)%nat) by (unfold clamp in Hi; rewrite map_length, !combine_length in Hi; lia).
  rewrite (clamp_row mask Y F n i) by assumption. destruct (nth i mask false); eapply shape_row; eauto.
Qed.
Lemma scaled_row F n i : List.length F = n -> (i < n)%nat ->
  nth i (normalise_rows F) [] = map (fun x => x / (if Qle_bool (Qsum (nth i F [])) 0 then 1 else Qsum (nth i F []))) (nth i F []).
Proof. intros H Hi. unfold normalise_rows. rewrite (nth_map_in _ _ i []) by lia. reflexivity. Qed.
Lemma scaled_shape F n k : shape n k F -> shape n k (normalise_rows F).
Proof.
  intros [H1 H2]. split; [unfold normalise_rows; rewrite map_length; exact H1|]. intros r Hr. unfold normalise_rows in Hr. apply in_map_iff in Hr as (r0 & <- & Hr0). rewrite map_length. apply H2, Hr0.
Qed.
Lemma zero_row mask Y n i : List.length mask = n -> List.length Y = n -> (i < n)%nat ->
  nth i (zero_unlabelled mask Y) [] = if nth i mask false then nth i Y [] else map (fun _ => 0) (nth i Y []).
Proof. intros H1 H2 Hi. unfold zero_unlabelled. rewrite (nth_map_combine _ _ _ i false []) by lia. reflexivity. Qed.
Lemma zero_shape mask Y n k : List.length mask = n -> shape n k Y -> shape n k (zero_unlabelled mask Y).
Proof.
  intros H1 HY. assert (HYl := proj1 HY). split; [unfold zero_unlabelled; rewrite map_length, combine_length; lia|].
  intros r Hr. apply (In_nth _ _ []) in Hr as (i & Hi & <-). assert (Hi' : (i < n)%nat) by (unfold zero_unlabelled in Hi; rewrite map_length, combine_length in Hi; lia).
  rewrite (zero_row mask Y n i) by assumption. assert (Hr := shape_row n k Y i HY Hi'). destruct (nth i mask false); [exact Hr|rewrite map_length; exact Hr].
Qed.
Lemma blend_row a S Y n k i : shape n k S -> shape n k Y -> (i < n)%nat ->
  nth i (blend a S Y) [] = map (fun q : Q * Q => a * fst q + (1 - a) * snd q) (combine (nth i S []) (nth i Y [])).
Proof. intros HS HY Hi. assert (H1 := proj1 HS). assert (H2 := proj1 HY). unfold blend. rewrite (nth_map_combine _ _ _ i [] []) by lia. reflexivity. Qed.
Lemma blend_shape a S Y n k : shape n k S -> shape n k Y -> shape n k (blend a S Y).
Proof.
  intros HS HY. assert (H1 := proj1 HS). assert (H2 := proj1 HY). split; [unfold blend; rewrite map_length, combine_length; lia|].
  intros r Hr. apply (In_nth _ _ []) in Hr as (i & Hi & <-). assert (Hi' : (i < n)%nat) by (unfold blend in Hi; rewrite map_length, combine_length in Hi; lia).
  rewrite (blend_row a S Y n k i) by assumption. rewrite map_length, combine_length. assert (E1 := shape_row n k S i HS Hi'). assert (E2 := shape_row n k Y i HY Hi'). lia.
Qed.
Lemma blend_entry a S Y n k i c : shape n k S -> shape n k Y -> (i < n)%nat -> (c < k)%nat -> entry (blend a S Y) i c = a * entry S i c + (1 - a) * entry Y i c.
Proof.
  intros HS HY Hi Hc. unfold entry. rewrite (blend_row a S Y n k i) by assumption. assert (E1 := shape_row n k S i HS Hi). assert (E2 := shape_row n k Y i HY Hi).
  rewrite (nth_map_combine _ _ _ c 0 0) by lia. reflexivity.
Qed.

(* ---------------------------------------------------------------- the label matrix *)
Lemma onehot_ok y k Y : labels_to_onehot y k = Ok Y -> (0 < k)%Z /\ (forall v, In v y -> (v < k)%Z) /\ Y = map (onehot_row (Z.to_nat k)) y.
Proof.
  unfold labels_to_onehot. destruct (k <=? 0)%Z eqn:Ek; [discriminate|]. destruct (existsb _ y) eqn:Ee; [discriminate|]. intros [= <-]. split; [lia|]. split; [|reflexivity].
  intros v Hv. destruct (v >=? k)%Z eqn:Ev; [|lia]. exfalso. assert (existsb (fun v => (v >=? k)%Z) y = true) by (apply existsb_exists; exists v; auto). congruence.
Qed.
Lemma onehot_shape y k : shape (List.length y) k (map (onehot_row k) y).
Proof. split; [apply map_length|]. intros r Hr. apply in_map_iff in Hr as (v & <- & _). unfold onehot_row. rewrite map_length, seq_length. reflexivity. Qed.
Lemma label_entry y mask k i c : List.length mask = List.length y -> (i < List.length y)%nat -> (c < k)%nat ->
  entry (zero_unlabelled mask (map (onehot_row k) y)) i c = target y mask i c.
Proof.
  intros Hm Hi Hc. unfold entry. rewrite (zero_row _ _ (List.length y) i) by (rewrite ?map_length; lia). rewrite (nth_map_in (onehot_row k) y i (-1)%Z) by exact Hi. unfold target.
  destruct (nth i mask false); cbn [andb].
  - unfold onehot_row. rewrite (nth_map_in _ _ c O) by (rewrite seq_length; exact Hc). rewrite seq_nth by exact Hc. reflexivity.
  - rewrite (nth_map_in _ _ c 0); [reflexivity|]. unfold onehot_row. rewrite map_length, seq_length. exact Hc.
Qed.

(* ---------------------------------------------------------------- one round, entry by entry *)
Lemma spmm_entry E n k F i c : (i < n)%nat -> (c < k)%nat -> entry (spmm E n k F) i c = arriving E e_w (entry F) i c.
Proof. intros Hi Hc. unfold spmm. rewrite entry_tabulate by assumption. reflexivity. Qed.
Lemma spmm_shape E n k F : shape n k (spmm E n k F).
Proof. apply shape_tabulate. Qed.
Section Rounds.
Variable root : Q -> Q.
Variable eps : Q.
Lemma arriving_normalise mode E F i c : arriving (normalise root eps mode E) e_w F i c == arriving E (normalised root eps mode E) F i c.
Proof.
  unfold arriving, normalise. set (W := normalised root eps mode E). clearbody W. induction E as [|e E IH]; [reflexivity|]. cbn [map filter]. cbn [e_dst fst snd]. destruct (e_dst e =? Z.of_nat i)%Z; [|exact IH]. cbn [map]. qs.
  rewrite IH. reflexivity.
Qed.
End Rounds.
Lemma arriving_ext E w F G i c : (forall e, In e E -> F (Z.to_nat (e_src e)) c == G (Z.to_nat (e_src e)) c) -> arriving E w F i c == arriving E w G i c.
Proof. intros H. apply Qsum_ext. intros e He. apply filter_In in He as [He _]. rewrite (H e He). reflexivity. Qed.

Lemma scaled_entry (rows : bool) G n k i c : shape n k G -> (i < n)%nat -> (c < k)%nat -> entry (if rows then normalise_rows G else G) i c = row_scaled rows k (entry G) i c.
Proof.
  intros HG Hi Hc. destruct rows; unfold row_scaled; [|reflexivity]. unfold entry at 1. rewrite (scaled_row G n i (proj1 HG) Hi). rewrite (nth_map_in _ _ c 0) by (rewrite (shape_row n k G i HG Hi); exact Hc).
  assert (E := row_sum_entries n k G i HG Hi). unfold row_sum in E. rewrite E. reflexivity.
Qed.
Lemma row_scaled_ext rows k F G i : (forall c, (c < k)%nat -> F i c == G i c) -> forall c, (c < k)%nat -> row_scaled rows k F i c == row_scaled rows k G i c.
Proof.
  intros H c Hc. unfold row_scaled. destruct rows; [|apply H, Hc].
  assert (Es : sum_classes k (F i) == sum_classes k (G i)) by (apply Qsum_ext; intros x Hx; apply in_seq in Hx; apply H; lia).
  rewrite (H c Hc). destruct (Qle_bool (sum_classes k (F i)) 0) eqn:E1, (Qle_bool (sum_classes k (G i)) 0) eqn:E2; [reflexivity| | |rewrite Es; reflexivity].
  - apply Qle_bool_iff in E1. rewrite Es in E1. apply Qle_bool_iff in E1. congruence.
  - apply Qle_bool_iff in E2. rewrite <- Es in E2. apply Qle_bool_iff in E2. congruence.
Qed.
Definition in_range (n : nat) (E : list edge) : Prop := forall e, In e E -> (0 <= e_src e < Z.of_nat n)%Z /\ (0 <= e_dst e < Z.of_nat n)%Z.
Section Rounds2.
Variable root : Q -> Q.
Variable eps : Q.
Lemma normalise_range n mode E : in_range n E -> in_range n (normalise root eps mode E).
Proof. intros H e He. unfold normalise in He. apply in_map_iff in He as (e0 & <- & He0). cbn [e_src e_dst fst snd]. apply H, He0. Qed.

Lemma lp_update_shape E n k mask Y rows F : List.length mask = n -> shape n k Y -> shape n k (lp_update E n k mask Y rows F).
Proof. intros Hm HY. unfold lp_update. assert (H := clamp_shape mask Y (spmm E n k F) n k Hm HY (shape_tabulate _ _ _)). destruct rows; [apply scaled_shape, H|exact H]. Qed.
Lemma lp_update_round mode E n k mask y rows F : List.length mask = n -> List.length y = n -> in_range n E -> shape n k F ->
  agree n k (entry (lp_update (normalise root eps mode E) n k mask (zero_unlabelled mask (map (onehot_row k) y)) rows F))
            (lp_round E (normalised root eps mode E) mask y k rows (entry F)).
Proof.
  intros Hm Hy HE HF i c Hi Hc. set (Y := zero_unlabelled mask (map (onehot_row k) y)).
  assert (HY : shape n k Y) by (unfold Y; apply zero_shape; [exact Hm|]; rewrite <- Hy; apply onehot_shape).
  unfold lp_update, lp_round. set (G := clamp mask Y (spmm (normalise root eps mode E) n k F)).
  assert (HG : shape n k G) by (apply clamp_shape; [exact Hm|exact HY|apply shape_tabulate]).
  rewrite (scaled_entry rows G n k i c HG Hi Hc). apply row_scaled_ext; [|exact Hc]. clear c Hc. intros c Hc. unfold entry at 1. unfold G. rewrite (clamp_row mask Y _ n i Hm (proj1 HY) (proj1 (spmm_shape _ n k F)) Hi).
  destruct (nth i mask false) eqn:Em.
  - fold (entry Y i c). unfold Y. rewrite label_entry by lia. reflexivity.
  - fold (entry (spmm (normalise root eps mode E) n k F) i c). rewrite spmm_entry by assumption. apply arriving_normalise.
Qed.
Lemma ls_update_shape E n k a Y rows F : shape n k Y -> shape n k (ls_update E n k a Y rows F).
Proof. intros HY. unfold ls_update. assert (H := blend_shape a (spmm E n k F) Y n k (shape_tabulate _ _ _) HY). destruct rows; [apply scaled_shape, H|exact H]. Qed.
Lemma ls_update_round mode E n k mask y rows a F : List.length mask = n -> List.length y = n -> in_range n E -> shape n k F ->
  agree n k (entry (ls_update (normalise root eps mode E) n k a (zero_unlabelled mask (map (onehot_row k) y)) rows F))
            (ls_round E (normalised root eps mode E) mask y k rows a (entry F)).
Proof.
  intros Hm Hy HE HF i c Hi Hc. set (Y := zero_unlabelled mask (map (onehot_row k) y)).
  assert (HY : shape n k Y) by (unfold Y; apply zero_shape; [exact Hm|]; rewrite <- Hy; apply onehot_shape).
  unfold ls_update, ls_round. set (G := blend a (spmm (normalise root eps mode E) n k F) Y).
  assert (HG : shape n k G) by (apply blend_shape; [apply shape_tabulate|exact HY]).
  rewrite (scaled_entry rows G n k i c HG Hi Hc). apply row_scaled_ext; [|exact Hc]. clear c Hc. intros c Hc. unfold G.
  rewrite (blend_entry a _ Y n k i c (spmm_shape _ n k F) HY Hi Hc). rewrite spmm_entry by assumption. rewrite arriving_normalise. unfold Y. rewrite label_entry by lia. reflexivity.
Qed.
End Rounds2.

(* ---------------------------------------------------------------- the largest change *)
Lemma fold_max_ge l x : In x l -> x <= fold_right Qmax 0 l.
Proof. induction l as [|a l IH]; intros []; cbn [fold_right]; [subst; apply Q.le_max_l|]. eapply Qle_trans; [apply IH; assumption|apply Q.le_max_r]. Qed.
Lemma fold_max_in l : l <> [] -> (forall x, In x l -> 0 <= x) -> exists x, In x l /\ fold_right Qmax 0 l == x.
Proof.
  induction l as [|a l IH]; intros Hn Hp; [congruence|]. cbn [fold_right]. destruct (Q.max_spec a (fold_right Qmax 0 l)) as [[Hlt Em]|[Hle Em]]; [|exists a; split; [left; reflexivity|exact Em]].
  destruct l as [|b l]; [cbn [fold_right] in *; exfalso; specialize (Hp a (or_introl eq_refl)); apply (Qlt_not_le _ _ Hlt), Hp|].
  destruct IH as (x & Hx & E); [discriminate|intros x Hx; apply Hp; right; exact Hx|]. exists x. split; [right; exact Hx|rewrite Em; exact E].
Qed.
Lemma max_diff_largest n k G F : (0 < n)%nat -> (0 < k)%nat -> shape n k G -> shape n k F -> largest_change n k (entry G) (entry F) (max_diff G F).
Proof.
  intros Hn Hk HG HF. assert (HGl := proj1 HG). assert (HFl := proj1 HF). unfold max_diff.
  set (rowd := fun p : list Q * list Q => fold_right Qmax 0 (map (fun q : Q * Q => Qabs (fst q - snd q)) (combine (fst p) (snd p)))).
  assert (Hrow : forall i, (i < n)%nat -> nth i (map rowd (combine G F)) 0 = rowd (nth i G [], nth i F [])) by (intros i Hi; apply nth_map_combine; lia).
  assert (Hcell : forall i c, (i < n)%nat -> (c < k)%nat -> nth c (map (fun q : Q * Q => Qabs (fst q - snd q)) (combine (nth i G []) (nth i F []))) 0 = Qabs (entry G i c - entry F i c)).
  { intros i c Hi Hc. rewrite (nth_map_combine _ _ _ c 0 0) by (rewrite ?(shape_row n k G i HG Hi), ?(shape_row n k F i HF Hi); lia). reflexivity. }
  assert (Hlen : forall i, (i < n)%nat -> List.length (map (fun q : Q * Q => Qabs (fst q - snd q)) (combine (nth i G []) (nth i F []))) = k).
  { intros i Hi. rewrite map_length, combine_length, (shape_row n k G i HG Hi), (shape_row n k F i HF Hi). lia. }
  assert (Hlr : List.length (map rowd (combine G F)) = n) by (rewrite map_length, combine_length; lia).
  split.
  - intros i c Hi Hc. eapply Qle_trans; [|apply fold_max_ge; apply (nth_In _ 0 (n := i)); lia]. rewrite Hrow by exact Hi. unfold rowd. cbn [fst snd]. rewrite <- (Hcell i c Hi Hc). apply fold_max_ge, nth_In. rewrite (Hlen i Hi). exact Hc.
  - destruct (fold_max_in (map rowd (combine G F))) as (x & Hx & Ex).
    + intros E. rewrite E in Hlr. cbn in Hlr. lia.
    + intros x Hx. apply in_map_iff in Hx as (p & <- & _). unfold rowd. generalize (combine (fst p) (snd p)). intros l. induction l as [|q l IH]; cbn [map fold_right]; [apply Qle_refl|]. eapply Qle_trans; [apply IH|apply Q.le_max_r].
    + apply (In_nth _ _ 0) in Hx as (i & Hi & Ei). rewrite Hlr in Hi. rewrite (Hrow i Hi) in Ei. unfold rowd in Ei. cbn [fst snd] in Ei.
      destruct (fold_max_in (map (fun q : Q * Q => Qabs (fst q - snd q)) (combine (nth i G []) (nth i F [])))) as (z & Hz & Ez).
      * intros E. assert (Hl := Hlen i Hi). rewrite E in Hl. cbn in Hl. lia.
      * intros z Hz. apply in_map_iff in Hz as (q & <- & _). apply Qabs_nonneg.
      * apply (In_nth _ _ 0) in Hz as (c & Hc & Ec). rewrite (Hlen i Hi) in Hc. exists i, c. split; [exact Hi|]. split; [exact Hc|]. rewrite Ex, <- Ei, Ez, <- Ec, (Hcell i c Hi Hc). reflexivity.
Qed.
Lemma largest_unique n k G F r r' : largest_change n k G F r -> largest_change n k G F r' -> r == r'.
Proof.
  intros [H1 (i & c & Hi & Hc & E)] [H1' (i' & c' & Hi' & Hc' & E')]. apply Qle_antisym; [rewrite E; apply H1'; assumption|rewrite E'; apply H1; assumption].
Qed.

(* ---------------------------------------------------------------- the loop *)
Lemma iter_S {A} (f : A -> A) m x : Nat.iter (S m) f x = f (Nat.iter m f x).
Proof. reflexivity. Qed.
Lemma iterate_spec distance update tol max_iter F0 : forall fuel done F res,
  F = Nat.iter done update F0 -> (fuel = 0%nat -> res = None -> done = 0%nat) -> Z.of_nat (done + fuel) = Z.max 0 max_iter ->
  match res with None => done = O | Some r => (1 <= done)%nat /\ r = distance (Nat.iter done update F0) (Nat.iter (done - 1) update F0) /\ Qle_bool r tol = false end ->
  (forall j, (1 <= j < done)%nat -> Qle_bool (distance (Nat.iter j update F0) (Nat.iter (j - 1) update F0)) tol = false) ->
  let d := iterate distance update tol max_iter fuel (Z.of_nat done) F res in
  match d_residual d with
  | None => (max_iter <= 0)%Z /\ d_iter d = max_iter /\ d_F d = F0
  | Some r => (1 <= d_iter d <= max_iter)%Z /\ d_F d = Nat.iter (Z.to_nat (d_iter d)) update F0 /\
      r = distance (Nat.iter (Z.to_nat (d_iter d)) update F0) (Nat.iter (Z.to_nat (d_iter d) - 1) update F0) /\
      (forall j, (1 <= j < Z.to_nat (d_iter d))%nat -> Qle_bool (distance (Nat.iter j update F0) (Nat.iter (j - 1) update F0)) tol = false) /\
      (Qle_bool r tol = true \/ d_iter d = max_iter)
  end.
Proof.
  induction fuel as [|fuel IH]; intros done F res HF H0 Hm Hres Hj; cbn [iterate].
  - cbn [d_residual d_iter d_F]. destruct res as [r|].
    + destruct Hres as (Hd & Hr & Hf). assert (Ed : Z.to_nat max_iter = done) by lia. rewrite Ed. split; [lia|]. split; [exact HF|]. split; [exact Hr|]. split; [exact Hj|right; reflexivity].
    + subst done. split; [lia|]. split; [reflexivity|exact HF].
  - destruct (Qle_bool (distance (update F) F) tol) eqn:E.
    + cbn [d_residual d_iter d_F]. replace (Z.to_nat (Z.of_nat done + 1)) with (S done) by lia. split; [lia|]. replace (S done - 1)%nat with done by lia. rewrite !iter_S, <- HF. split; [reflexivity|]. split; [reflexivity|]. split; [|left; exact E].
      intros j Hj'. destruct (Nat.eq_dec j done) as [->|]; [|apply Hj; lia]. destruct res as [r|]; [|lia]. destruct Hres as (_ & -> & Hf). exact Hf.
    + replace (Z.of_nat done + 1)%Z with (Z.of_nat (S done)) by lia. apply IH.
      * rewrite iter_S, <- HF. reflexivity.
      * discriminate.
      * lia.
      * split; [lia|]. replace (S done - 1)%nat with done by lia. rewrite iter_S, <- HF. split; [reflexivity|exact E].
      * intros j Hj'. destruct (Nat.eq_dec j done) as [->|]; [|apply Hj; lia]. destruct res as [r|]; [|lia]. destruct Hres as (_ & -> & Hf). exact Hf.
Qed.
Lemma iterate_stopped update tol max_iter n k round Y : (0 < n)%nat -> (0 < k)%nat -> shape n k Y -> (forall F, shape n k F -> shape n k (update F)) ->
  (forall F, shape n k F -> agree n k (entry (update F)) (round (entry F))) -> forall F0, agree n k (entry Y) F0 ->
  stopped_iteration n k round F0 tol max_iter (iterate max_diff update tol max_iter (Z.to_nat max_iter) 0 Y None).
Proof.
  intros Hn Hk HY Hsh Hround F0 HF0. assert (Hs : forall m, shape n k (Nat.iter m update Y)) by (induction m; cbn; [exact HY|apply Hsh, IHm]).
  exists (fun m => entry (Nat.iter m update Y)). split; [exact HF0|]. split; [intros m; cbn; apply Hround, Hs|].
  assert (H := iterate_spec max_diff update tol max_iter Y (Z.to_nat max_iter) O Y None eq_refl (fun _ _ => eq_refl) ltac:(lia) eq_refl ltac:(intros; lia)). cbn [Z.of_nat] in H.
  destruct (d_residual (iterate max_diff update tol max_iter (Z.to_nat max_iter) 0 Y None)) as [r|].
  - destruct H as (H1 & H2 & H3 & H4 & H5). split; [exact H1|]. cbn zeta. rewrite <- H2. split; [intros i c _ _; reflexivity|]. rewrite H2. split; [rewrite H3; apply max_diff_largest; auto|]. split.
    + intros j r' Hj Hr'. assert (Hf := H4 j Hj). assert (Er := largest_unique _ _ _ _ _ _ Hr' (max_diff_largest n k _ _ Hn Hk (Hs j) (Hs (j - 1)%nat))). apply Qnot_le_lt. intros Hle. rewrite Er in Hle. apply Qle_bool_iff in Hle. congruence.
    + destruct H5 as [H5|H5]; [left; apply Qle_bool_iff, H5|right; exact H5].
  - destruct H as (H1 & H2 & H3). split; [exact H1|]. split; [exact H2|]. rewrite H3. intros i c _ _. reflexivity.
Qed.

(* ---------------------------------------------------------------- accepted inputs *)
Definition nonneg_weights (weight : option (list Q)) : Prop := match weight with None => True | Some l => forall x, In x l -> 0 <= x end.
Lemma validate_graph_ok n ei weight E : validate_graph n ei weight = Ok E ->
  (0 < n)%Z /\ in_range (Z.to_nat n) E /\ E = combine ei (match weight with None => map (fun _ => 1) ei | Some l => l end) /\
  List.length (match weight with None => map (fun _ => 1) ei | Some l => l end) = List.length ei /\ (nonneg_weights weight -> forall e, In e E -> 0 <= e_w e).
Proof.
  unfold validate_graph. set (w := match weight with None => map (fun _ => 1) ei | Some l => l end).
  destruct (Nat.eqb (List.length w) (List.length ei)) eqn:El; cbn [negb]; [|discriminate]. destruct (n <=? 0)%Z eqn:En; [discriminate|].
  destruct (existsb _ ei) eqn:E1; [discriminate|]. destruct (existsb (fun e => (fst e >=? n)%Z || (snd e >=? n)%Z) ei) eqn:E2; [discriminate|]. intros [= <-].
  split; [lia|]. split; [|split; [reflexivity|split; [apply Nat.eqb_eq; exact El|]]].
  - intros [[a b] x] He. apply in_combine_l in He. cbn [e_src e_dst fst snd].
    assert (H1 : (fst (a, b) <? 0)%Z || (snd (a, b) <? 0)%Z = false).
    { destruct ((fst (a, b) <? 0)%Z || (snd (a, b) <? 0)%Z) eqn:E0; [|reflexivity]. assert (existsb (fun e => (fst e <? 0)%Z || (snd e <? 0)%Z) ei = true) by (apply existsb_exists; eauto). congruence. }
    assert (H2 : (fst (a, b) >=? n)%Z || (snd (a, b) >=? n)%Z = false).
    { destruct ((fst (a, b) >=? n)%Z || (snd (a, b) >=? n)%Z) eqn:E0; [|reflexivity]. assert (existsb (fun e => (fst e >=? n)%Z || (snd e >=? n)%Z) ei = true) by (apply existsb_exists; eauto). congruence. }
    cbn [fst snd] in *. lia.
  - intros Hw [[a b] x] He. cbn [e_w snd]. apply in_combine_r in He. unfold w in He. destruct weight as [l|]; [apply Hw, He|]. apply in_map_iff in He as (? & <- & _). discriminate.
Qed.
Lemma prepare_ok n ei weight y mask E Y k : prepare n ei weight y mask = Ok (E, (Y, k)) ->
  validate_graph n ei weight = Ok E /\ (0 < n)%Z /\ in_range (Z.to_nat n) E /\ List.length y = Z.to_nat n /\ List.length mask = Z.to_nat n /\
  k = propagation_classes y mask /\ (0 < k)%Z /\ (forall v, In v y -> (v < k)%Z) /\ Y = zero_unlabelled mask (map (onehot_row (Z.to_nat k)) y).
Proof.
  unfold prepare. intros H. inv_bind H. destruct (lenZ y =? n)%Z eqn:Ey; cbn [negb] in H; [|discriminate]. destruct (lenZ mask =? n)%Z eqn:Em; cbn [negb] in H; [|discriminate].
  inv_bind H. injection H as -> <- <-. apply onehot_ok in E1 as (Hk & Hv & ->). destruct (validate_graph_ok _ _ _ _ E0) as (Hn & Hr & _). unfold lenZ in *.
  split; [exact E0|]. split; [exact Hn|]. split; [exact Hr|]. split; [lia|]. split; [lia|]. auto.
Qed.

(* ---------------------------------------------------------------- what a round preserves *)
Section Invariant.
Variable root : Q -> Q.
Variable eps : Q.
Hypothesis Heps : 0 < eps.
Hypothesis Hroot : forall x, 0 < x -> 0 < root x.
Variables (E : list edge) (mode : norm_mode) (n k : nat) (y : list Z) (mask : list bool).
Hypothesis HE : in_range n E.
Hypothesis Hw : forall e, In e E -> 0 <= e_w e.
Hypothesis Hy : forall v, In v y -> (v < Z.of_nat k)%Z.
Hypothesis Hly : List.length y = n.
Hypothesis Hk : (0 < k)%nat.
Let w := normalised root eps mode E.

Lemma Qdiv_nonneg a b : 0 <= a -> 0 < b -> 0 <= a / b.
Proof. intros Ha Hb. unfold Qdiv. apply Qmult_le_0_compat; [exact Ha|]. apply Qlt_le_weak, Qinv_lt_0_compat, Hb. Qed.
Lemma deg_pos i : 0 < Qmax (degree E i) eps.
Proof. eapply Qlt_le_trans; [exact Heps|apply Q.le_max_r]. Qed.
Lemma normalised_nonneg e : In e E -> 0 <= w e.
Proof.
  intros He. unfold w, normalised. destruct mode; [apply Qdiv_nonneg; [apply Hw, He|apply deg_pos]| |apply Hw, He].
  apply Qdiv_nonneg; [apply Hw, He|]. apply Hroot. apply Qmult_lt_0_compat; apply deg_pos.
Qed.
Lemma target_sum i : (i < n)%nat -> sum_classes k (target y mask i) == if nth i mask false && (0 <=? nth i y (-1))%Z then 1 else 0.
Proof.
  intros Hi. unfold sum_classes, target. destruct (nth i mask false); cbn [andb]; [|apply Qsum_zero; reflexivity].
  assert (Hv := Hy (nth i y (-1)%Z) ltac:(apply nth_In; lia)). set (v := nth i y (-1)%Z) in *. clearbody v. clear Hi.
  assert (H : forall m s, Qsum (map (fun c => if (v =? Z.of_nat c)%Z then 1 else 0) (seq s m)) == if (Z.of_nat s <=? v)%Z && (v <? Z.of_nat (s + m))%Z then 1 else 0).
  { induction m as [|m IH]; intros s; cbn [seq map]; [qs; replace ((Z.of_nat s <=? v)%Z && (v <? Z.of_nat (s + 0))%Z) with false by lia; reflexivity|]. qs. rewrite IH.
    destruct (v =? Z.of_nat s)%Z eqn:Ev.
    - replace ((Z.of_nat (S s) <=? v)%Z && (v <? Z.of_nat (S s + m))%Z) with false by lia. replace ((Z.of_nat s <=? v)%Z && (v <? Z.of_nat (s + S m))%Z) with true by lia. ring.
    - replace ((Z.of_nat s <=? v)%Z && (v <? Z.of_nat (s + S m))%Z) with ((Z.of_nat (S s) <=? v)%Z && (v <? Z.of_nat (S s + m))%Z) by lia. ring. }
  rewrite (H k O). replace ((Z.of_nat 0 <=? v)%Z && (v <? Z.of_nat (0 + k))%Z) with (0 <=? v)%Z by lia. reflexivity.
Qed.
Lemma target_nonneg i c : 0 <= target y mask i c.
Proof. unfold target. destruct (_ && _); discriminate. Qed.
Definition nonneg (F : nat -> nat -> Q) : Prop := forall i c, (i < n)%nat -> (c < k)%nat -> 0 <= F i c.
Lemma arriving_nonneg F i c : nonneg F -> (c < k)%nat -> 0 <= arriving E w F i c.
Proof.
  intros HF Hc. apply Qsum_nonneg. intros x Hx. apply in_map_iff in Hx as (e & <- & He). apply filter_In in He as [He _]. apply Qmult_le_0_compat; [apply normalised_nonneg, He|]. apply HF; [|exact Hc]. destruct (HE e He). lia.
Qed.
Lemma scaled_nonneg rows G : nonneg G -> nonneg (row_scaled rows k G).
Proof.
  intros HG i c Hi Hc. unfold row_scaled. destruct rows; [|apply HG; assumption]. apply Qdiv_nonneg; [apply HG; assumption|]. destruct (Qle_bool (sum_classes k (G i)) 0) eqn:E0; [reflexivity|]. apply Qnot_le_lt. intros H. apply Qle_bool_iff in H. congruence.
Qed.
Lemma scaled_sum G i : nonneg G -> (i < n)%nat -> sum_classes k (row_scaled true k G i) == 0 \/ sum_classes k (row_scaled true k G i) == 1.
Proof.
  intros HG Hi. unfold row_scaled. set (s := sum_classes k (G i)). destruct (Qle_bool s 0) eqn:Es.
  - left. apply Qle_bool_iff in Es. unfold sum_classes. assert (E0 : Qsum (map (G i) (seq 0 k)) == 0).
    { apply Qle_antisym; [exact Es|]. apply Qsum_nonneg. intros x Hx. apply in_map_iff in Hx as (c & <- & Hc). apply in_seq in Hc. apply HG; lia. }
    transitivity (Qsum (map (G i) (seq 0 k))); [|exact E0]. apply Qsum_ext. intros c Hc. field.
  - right. assert (Hp : 0 < s) by (apply Qnot_le_lt; intros H; apply Qle_bool_iff in H; congruence). unfold sum_classes.
    transitivity (Qsum (map (fun c => G i c * / s) (seq 0 k))); [apply Qsum_ext; intros c _; reflexivity|]. rewrite Qsum_scale_r. fold (sum_classes k (G i)). fold s. field. intros H. rewrite H in Hp. discriminate.
Qed.
(* rows that are already labels stay *)
Lemma scaled_label rows G i c : (i < n)%nat -> (forall c, (c < k)%nat -> G i c == target y mask i c) -> (c < k)%nat -> row_scaled rows k G i c == target y mask i c.
Proof.
  intros Hi HG Hc. destruct rows; [|apply HG, Hc]. rewrite (row_scaled_ext true k G (target y mask) i HG c Hc). unfold row_scaled.
  assert (Hs := target_sum i Hi). destruct (nth i mask false && (0 <=? nth i y (-1))%Z).
  - destruct (Qle_bool (sum_classes k (target y mask i)) 0) eqn:E0; [apply Qle_bool_iff in E0; rewrite Hs in E0; exfalso; apply (Qlt_not_le 0 1); [reflexivity|exact E0]|]. rewrite Hs. field.
  - destruct (Qle_bool (sum_classes k (target y mask i)) 0) eqn:E0; [field|]. exfalso. assert (sum_classes k (target y mask i) <= 0) as H by (rewrite Hs; apply Qle_refl). apply Qle_bool_iff in H. congruence.
Qed.
(* without row scaling, random-walk weights average *)
Lemma arriving_sum F i : mode = Rw -> nonneg F -> (forall j, (j < n)%nat -> sum_classes k (F j) <= 1) -> sum_classes k (arriving E w F i) <= 1.
Proof.
  intros Hm HF Hs. unfold sum_classes, arriving.
  rewrite (Qsum_swap (fun c e => w e * F (Z.to_nat (e_src e)) c) (seq 0 k) (filter (fun e => (e_dst e =? Z.of_nat i)%Z) E)).
  eapply Qle_trans; [apply (Qsum_le _ (fun e => w e))|].
  - intros e He. apply filter_In in He as [He _]. rewrite Qsum_scale. setoid_replace (w e) with (w e * 1) at 2 by ring. apply Qmult_le_lnn.
    + apply normalised_nonneg, He.
    + apply Hs. destruct (HE e He). lia.
  - assert (Ew : forall e, In e (filter (fun e => (e_dst e =? Z.of_nat i)%Z) E) -> w e == e_w e * / Qmax (degree E (Z.of_nat i)) eps).
    { intros e He. apply filter_In in He as [_ He]. unfold w, normalised. rewrite Hm. apply Z.eqb_eq in He. rewrite He. reflexivity. }
    rewrite (Qsum_ext _ _ _ Ew), Qsum_scale_r. fold (degree E (Z.of_nat i)). assert (Hp := deg_pos (Z.of_nat i)).
    apply Qle_shift_div_r; [exact Hp|]. rewrite Qmult_1_l. apply Q.le_max_l.
Qed.

Definition lp_good (rows : bool) (F : nat -> nat -> Q) : Prop :=
  nonneg F /\ (forall i c, (i < n)%nat -> (c < k)%nat -> nth i mask false = true -> F i c == target y mask i c) /\
  (forall i, (i < n)%nat -> (rows = true -> sum_classes k (F i) == 0 \/ sum_classes k (F i) == 1) /\ (mode = Rw -> sum_classes k (F i) <= 1)).
Lemma lp_good_start rows : lp_good rows (target y mask).
Proof.
  split; [intros i c _ _; apply target_nonneg|]. split; [reflexivity|]. intros i Hi. assert (Hs := target_sum i Hi). destruct (nth i mask false && (0 <=? nth i y (-1))%Z).
  - split; [intros _; right; exact Hs|intros _; rewrite Hs; apply Qle_refl].
  - split; [intros _; left; exact Hs|intros _; rewrite Hs; discriminate].
Qed.
Lemma lp_good_round rows F : lp_good rows F -> lp_good rows (lp_round E w mask y k rows F).
Proof.
  intros (H1 & H2 & H3). unfold lp_round. set (G := fun i c => if nth i mask false then target y mask i c else arriving E w F i c).
  assert (HG : nonneg G) by (intros i c Hi Hc; unfold G; destruct (nth i mask false); [apply target_nonneg|apply arriving_nonneg; assumption]).
  split; [apply scaled_nonneg, HG|]. split.
  - intros i c Hi Hc Hm. apply scaled_label; [exact Hi| |exact Hc]. intros c' Hc'. unfold G. rewrite Hm. reflexivity.
  - intros i Hi. split.
    + intros ->. apply scaled_sum; assumption.
    + intros Hm. destruct rows.
      * destruct (scaled_sum G i HG Hi) as [-> | ->]; [discriminate|apply Qle_refl].
      * unfold row_scaled. unfold sum_classes. change (map (fun c => G i c) (seq 0 k)) with (map (G i) (seq 0 k)). unfold G. destruct (nth i mask false) eqn:Em.
        -- assert (Hs := target_sum i Hi). unfold sum_classes in Hs. rewrite Em in Hs. cbn [andb] in Hs. change (map (fun c => target y mask i c) (seq 0 k)) with (map (target y mask i) (seq 0 k)). rewrite Hs. destruct (0 <=? nth i y (-1))%Z; discriminate.
        -- apply (arriving_sum F i Hm H1). intros j Hj. apply H3; assumption.
Qed.
Lemma agree_good rows F G : agree n k F G -> lp_good rows G -> lp_good rows F.
Proof.
  intros Ha (H1 & H2 & H3). assert (Hs : forall i, (i < n)%nat -> sum_classes k (F i) == sum_classes k (G i)) by (intros i Hi; apply Qsum_ext; intros c Hc; apply in_seq in Hc; apply Ha; lia).
  split; [intros i c Hi Hc; rewrite (Ha i c Hi Hc); apply H1; assumption|]. split; [intros i c Hi Hc Hm; rewrite (Ha i c Hi Hc); apply H2; assumption|].
  intros i Hi. destruct (H3 i Hi) as [H4 H5]. split; [intros Hr; rewrite (Hs i Hi); apply H4, Hr|intros Hm; rewrite (Hs i Hi); apply H5, Hm].
Qed.
(* label spreading: non-negative, and rows sum to 0 or 1 *)
Definition ls_good (rows : bool) (F : nat -> nat -> Q) : Prop :=
  nonneg F /\ (forall i, (i < n)%nat -> (rows = true -> sum_classes k (F i) == 0 \/ sum_classes k (F i) == 1) /\ (mode = Rw -> sum_classes k (F i) <= 1)).
Lemma ls_good_round rows a F : 0 <= a -> a < 1 -> ls_good rows F -> ls_good rows (ls_round E w mask y k rows a F).
Proof.
  intros Ha0 Ha1 (H1 & H3). unfold ls_round. set (G := fun i c => a * arriving E w F i c + (1 - a) * target y mask i c).
  assert (Hb : 0 <= 1 - a) by (apply Qlt_le_weak in Ha1; apply Qle_minus_iff in Ha1; exact Ha1).
  assert (HG : nonneg G).
  { intros i c Hi Hc. unfold G. setoid_replace 0 with (0 + 0) by ring. apply Qplus_le_compat; apply Qmult_le_0_compat; auto; [apply arriving_nonneg; assumption|apply target_nonneg]. }
  split; [apply scaled_nonneg, HG|]. intros i Hi. split; [intros ->; apply scaled_sum; assumption|]. intros Hm. destruct rows.
  - destruct (scaled_sum G i HG Hi) as [-> | ->]; [discriminate|apply Qle_refl].
  - unfold row_scaled, sum_classes. change (map (fun c => G i c) (seq 0 k)) with (map (G i) (seq 0 k)). unfold G. rewrite Qsum_plus, !Qsum_scale.
    assert (Hs1 := arriving_sum F i Hm H1 (fun j Hj => proj2 (H3 j Hj) Hm)). unfold sum_classes in Hs1. change (map (fun c => arriving E w F i c) (seq 0 k)) with (map (arriving E w F i) (seq 0 k)).
    assert (Hs2 : Qsum (map (fun c => target y mask i c) (seq 0 k)) <= 1). { assert (Hs := target_sum i Hi). unfold sum_classes in Hs. change (map (fun c => target y mask i c) (seq 0 k)) with (map (target y mask i) (seq 0 k)). rewrite Hs. destruct (_ && _); discriminate. }
    setoid_replace 1 with (a * 1 + (1 - a) * 1) at 2 by ring. apply Qplus_le_compat; apply Qmult_le_lnn; assumption.
Qed.
Lemma agree_ls_good rows F G : agree n k F G -> ls_good rows G -> ls_good rows F.
Proof.
  intros Ha (H1 & H3). assert (Hs : forall i, (i < n)%nat -> sum_classes k (F i) == sum_classes k (G i)) by (intros i Hi; apply Qsum_ext; intros c Hc; apply in_seq in Hc; apply Ha; lia).
  split; [intros i c Hi Hc; rewrite (Ha i c Hi Hc); apply H1; assumption|].
  intros i Hi. destruct (H3 i Hi) as [H4 H5]. split; [intros Hr; rewrite (Hs i Hi); apply H4, Hr|intros Hm; rewrite (Hs i Hi); apply H5, Hm].
Qed.
End Invariant.

(* an invariant of the rounds holds of the result *)
Lemma stopped_invariant (P : (nat -> nat -> Q) -> Prop) n k round F0 tol max_iter d :
  (forall F G, agree n k F G -> P G -> P F) -> P F0 -> (forall F, P F -> P (round F)) -> stopped_iteration n k round F0 tol max_iter d -> P (entry (d_F d)).
Proof.
  intros Hag H0 Hr (Fs & E0 & Es & H). assert (Hall : forall m, P (Fs m)) by (induction m; [eapply Hag; eauto|eapply Hag; [apply Es|apply Hr, IHm]]).
  destruct (d_residual d); [destruct H as (_ & H & _)|destruct H as (_ & _ & H)]; eapply Hag; eauto.
Qed.

(* ---------------------------------------------------------------- label propagation and spreading *)
Section Results.
Variable root : Q -> Q.
Variable eps : Q.
Lemma lp_ok n ei weight y mask sp d : label_propagation root eps n ei weight y mask sp = Ok d -> exists E,
  let k := Z.to_nat (propagation_classes y mask) in
  validate_graph n ei weight = Ok E /\ (0 < n)%Z /\ (0 < k)%nat /\ in_range (Z.to_nat n) E /\ List.length y = Z.to_nat n /\ List.length mask = Z.to_nat n /\
  (forall v, In v y -> (v < Z.of_nat k)%Z) /\
  stopped_iteration (Z.to_nat n) k (lp_round E (normalised root eps (ps_norm sp) E) mask y k (ps_rows sp)) (target y mask) (ps_tol sp) (ps_max_iter sp) d.
Proof.
  unfold label_propagation. intros H. inv_bind H. destruct a as [G [Y k]]. injection H as <-. apply prepare_ok in E as (Hv & Hn & HE & Hy & Hm & -> & Hk & Hlt & ->).
  exists G. cbn zeta. split; [exact Hv|]. split; [exact Hn|]. split; [lia|]. split; [exact HE|]. split; [exact Hy|]. split; [exact Hm|]. split; [intros v Hv'; specialize (Hlt v Hv'); lia|].
  apply iterate_stopped; [lia|lia| | | |].
  - apply zero_shape; [exact Hm|]. rewrite <- Hy. apply onehot_shape.
  - intros F HF. apply lp_update_shape; [exact Hm|]. apply zero_shape; [exact Hm|]. rewrite <- Hy. apply onehot_shape.
  - intros F HF. apply lp_update_round; assumption.
  - intros i c Hi Hc. rewrite label_entry by lia. reflexivity.
Qed.
Lemma ls_ok n ei weight y mask a sp d : label_spreading root eps n ei weight y mask a sp = Ok d -> exists E,
  let k := Z.to_nat (propagation_classes y mask) in
  validate_graph n ei weight = Ok E /\ (0 < n)%Z /\ (0 < k)%nat /\ in_range (Z.to_nat n) E /\ List.length y = Z.to_nat n /\ List.length mask = Z.to_nat n /\
  (forall v, In v y -> (v < Z.of_nat k)%Z) /\ 0 <= a /\ a < 1 /\
  stopped_iteration (Z.to_nat n) k (ls_round E (normalised root eps (ps_norm sp) E) mask y k (ps_rows sp) a) (target y mask) (ps_tol sp) (ps_max_iter sp) d.
Proof.
  unfold label_spreading. intros H. inv_bind H. destruct (validate_graph_ok _ _ _ _ E) as (Hn & Hr & _). destruct (lenZ y =? n)%Z eqn:Ey; cbn [negb] in H; [|discriminate]. destruct (lenZ mask =? n)%Z eqn:Em; cbn [negb] in H; [|discriminate].
  destruct (Qle_bool 0 a && negb (Qle_bool 1 a)) eqn:Ea; cbn [negb] in H; [|discriminate]. inv_bind H. injection H as <-. apply onehot_ok in E0 as (Hk & Hlt & ->). unfold lenZ in *.
  apply andb_true_iff in Ea as [Ea1 Ea2]. apply Qle_bool_iff in Ea1. apply negb_true_iff in Ea2. assert (Ha : a < 1) by (apply Qnot_le_lt; intros Hx; apply Qle_bool_iff in Hx; congruence).
  assert (Hy : List.length y = Z.to_nat n) by lia. assert (Hm : List.length mask = Z.to_nat n) by lia.
  exists a0. cbn zeta. split; [exact E|]. split; [exact Hn|]. split; [lia|]. split; [exact Hr|]. split; [exact Hy|]. split; [exact Hm|]. split; [intros v Hv'; specialize (Hlt v Hv'); lia|]. split; [exact Ea1|]. split; [exact Ha|].
  apply iterate_stopped; [lia|lia| | | |].
  - apply zero_shape; [exact Hm|]. rewrite <- Hy. apply onehot_shape.
  - intros F HF. apply ls_update_shape. apply zero_shape; [exact Hm|]. rewrite <- Hy. apply onehot_shape.
  - intros F HF. apply ls_update_round; assumption.
  - intros i c Hi Hc. rewrite label_entry by lia. reflexivity.
Qed.
End Results.

(* ---------------------------------------------------------------- which datasets are accepted *)
Lemma masked_In {A} mask (l : list A) v d : List.length mask = List.length l -> In v (masked mask l) <-> exists i, (i < List.length l)%nat /\ nth i mask false = true /\ nth i l d = v.
Proof.
  intros Hl. unfold masked. rewrite in_map_iff. split.
  - intros ([b x] & <- & H). apply filter_In in H as [H Hb]. cbn in Hb. subst b. apply (In_nth _ _ (false, d)) in H as (i & Hi & E). rewrite combine_length in Hi. rewrite combine_nth in E by exact Hl. injection E as E1 E2. exists i. cbn [snd]. split; [lia|auto].
  - intros (i & Hi & Hm & <-). exists (nth i mask false, nth i l d). split; [reflexivity|]. apply filter_In. split; [|exact Hm]. rewrite <- combine_nth by exact Hl. apply nth_In. rewrite combine_length. lia.
Qed.
Lemma validate_node_ok y ei masks : validate_node y ei masks = Ok tt ->
  (forall c d, In c y -> (0 <= d <= c)%Z -> In d y) /\ (forall e, In e ei -> (0 <= fst e < lenZ y)%Z /\ (0 <= snd e < lenZ y)%Z) /\ (forall m, In m masks -> List.length m = List.length y).
Proof.
  unfold validate_node. destruct (list_eq_dec Z.eq_dec _ _) as [Ec|]; cbn [negb]; [|discriminate]. destruct (existsb _ ei) eqn:E1; [discriminate|]. destruct (existsb _ masks) eqn:E2; [discriminate|]. intros _.
  split; [|split].
  - intros c d Hc Hd. assert (Hin : In c (uniqueZ (filter (fun v => (v >=? 0)%Z) y))) by (apply uniqueZ_In, filter_In; split; [exact Hc|lia]).
    rewrite Ec in Hin. apply arange_In in Hin. assert (Hd' : In d (arange (lenZ (uniqueZ (filter (fun v => (v >=? 0)%Z) y))))) by (apply arange_In; lia). rewrite <- Ec in Hd'. apply uniqueZ_In, filter_In in Hd' as [Hd' _]. exact Hd'.
  - intros e He. destruct ((fst e <? 0) || (snd e <? 0) || (fst e >=? lenZ y) || (snd e >=? lenZ y))%Z eqn:E0; [|lia]. exfalso.
    assert (existsb (fun e => (fst e <? 0) || (snd e <? 0) || (fst e >=? lenZ y) || (snd e >=? lenZ y))%Z ei = true) by (apply existsb_exists; eauto). congruence.
  - intros m Hm. destruct (negb (lenZ m =? lenZ y)%Z) eqn:E0; [|unfold lenZ in *; lia]. exfalso. assert (existsb (fun m => negb (lenZ m =? lenZ y)%Z) masks = true) by (apply existsb_exists; eauto). congruence.
Qed.
Lemma labelled_classes y mask : List.length mask = List.length y -> (exists i, has_label y mask i) ->
  propagation_classes y mask = n_distinct (filter (fun v => (v >=? 0)%Z) (masked mask y)) /\ filter (fun v => (v >=? 0)%Z) (masked mask y) <> [].
Proof.
  intros Hl (i & Hm & Hv). assert (Hi : (i < List.length y)%nat) by (destruct (Nat.lt_ge_cases i (List.length y)) as [|Hge]; [assumption|]; rewrite nth_overflow in Hm by lia; discriminate).
  assert (Hin : In (nth i y (-1)%Z) (filter (fun v => (v >=? 0)%Z) (masked mask y))) by (apply filter_In; split; [apply (masked_In mask y _ (-1)%Z Hl); exists i; auto|lia]).
  assert (He : existsb (fun b => b) mask = true) by (apply existsb_exists; exists true; split; [rewrite <- Hm; apply nth_In; lia|reflexivity]).
  unfold propagation_classes. rewrite He. destruct (filter (fun v => (v >=? 0)%Z) (masked mask y)) as [|v l] eqn:Ef; [destruct Hin|]. split; [|discriminate].
  unfold n_distinct. assert (Hu : In v (uniqueZ (v :: l))) by (apply uniqueZ_In; left; reflexivity). destruct (uniqueZ (v :: l)); [destruct Hu|]. unfold lenZ. cbn [List.length]. lia.
Qed.
Section Accept.
Variable root : Q -> Q.
Variable eps : Q.
Lemma lp_accepts_iff ei weight y mask masks sp : validate_node y ei masks = Ok tt -> In mask masks -> (exists i, has_label y mask i) ->
  match weight with None => True | Some l => List.length l = List.length ei end ->
  ((exists d, label_propagation root eps (lenZ y) ei weight y mask sp = Ok d) <->
   (forall v, In v y -> (0 <= v)%Z -> exists i, nth i mask false = true /\ nth i y (-1)%Z = v)).
Proof.
  intros Hvn Hmk Hlab Hw. apply validate_node_ok in Hvn as (Hc & He & Hms). assert (Hm := Hms _ Hmk). destruct (labelled_classes y mask Hm Hlab) as [Hk Hne].
  assert (Hpos : (0 < lenZ y)%Z). { destruct Hlab as (i & Hi & _). unfold lenZ. destruct y; [|cbn [List.length]; lia]. destruct mask; [destruct i; discriminate|discriminate]. }
  assert (Hv : exists E, validate_graph (lenZ y) ei weight = Ok E).
  { unfold validate_graph. replace (negb (Nat.eqb (List.length (match weight with None => map (fun _ => 1) ei | Some l => l end)) (List.length ei))) with false.
    2:{ symmetry. apply negb_false_iff, Nat.eqb_eq. destruct weight; [exact Hw|apply map_length]. }
    replace (lenZ y <=? 0)%Z with false by lia. 
    replace (existsb (fun e => (fst e <? 0)%Z || (snd e <? 0)%Z) ei) with false.
    2:{ symmetry. destruct (existsb _ ei) eqn:Ex; [|reflexivity]. apply existsb_exists in Ex as (e & Hin & Hb). destruct (He e Hin). lia. }
    replace (existsb (fun e => (fst e >=? lenZ y)%Z || (snd e >=? lenZ y)%Z) ei) with false.
    2:{ symmetry. destruct (existsb _ ei) eqn:Ex; [|reflexivity]. apply existsb_exists in Ex as (e & Hin & Hb). destruct (He e Hin). lia. }
    eexists. reflexivity. }
  destruct Hv as (E & Ev).
  assert (Hiff : (exists d, label_propagation root eps (lenZ y) ei weight y mask sp = Ok d) <-> (forall v, In v y -> (v < propagation_classes y mask)%Z)).
  { split.
    - intros (d & H). apply lp_ok in H as (E' & _ & _ & _ & _ & _ & _ & H & _). intros v Hv. specialize (H v Hv). unfold propagation_classes in *. lia.
    - intros H. unfold label_propagation, prepare. rewrite Ev. cbn [bind]. rewrite Z.eqb_refl. cbn [negb]. replace (lenZ mask =? lenZ y)%Z with true by (unfold lenZ; lia). cbn [negb]. unfold labels_to_onehot.
      replace (propagation_classes y mask <=? 0)%Z with false by (unfold propagation_classes; lia).
      replace (existsb (fun v => (v >=? propagation_classes y mask)%Z) y) with false; [eexists; reflexivity|].
      symmetry. destruct (existsb _ y) eqn:Ex; [|reflexivity]. apply existsb_exists in Ex as (v & Hin & Hb). specialize (H v Hin). lia. }
  rewrite Hiff. clear Hiff E Ev Hw He.
  set (L := filter (fun v => (v >=? 0)%Z) (masked mask y)) in *. set (C := filter (fun v => (v >=? 0)%Z) y).
  assert (HLC : incl (uniqueZ L) (uniqueZ C)).
  { intros v Hv. apply uniqueZ_In. rewrite uniqueZ_In in Hv. apply filter_In in Hv as [Hv Hv0]. apply filter_In. split; [|exact Hv0]. apply (masked_In mask y v (-1)%Z Hm) in Hv as (i & Hi & _ & <-). apply nth_In, Hi. }
  rewrite Hk. unfold n_distinct. split.
  - intros H v Hv Hv0.
    (* all classes are below the number of labelled ones *)
    assert (HC : incl (uniqueZ C) (arange (lenZ (uniqueZ L)))) by (intros u Hu; apply uniqueZ_In, filter_In in Hu as [Hu Hu0]; apply arange_In; specialize (H u Hu); lia).
    assert (Hle : (List.length (uniqueZ C) <= List.length (uniqueZ L))%nat).
    { assert (Hx := NoDup_incl_length (uniqueZ_NoDup C) HC). rewrite arange_length in Hx. unfold lenZ in Hx. lia. }
    assert (Hin : In v (uniqueZ L)) by (apply (NoDup_length_incl (uniqueZ_NoDup L) Hle HLC), uniqueZ_In, filter_In; split; [exact Hv|lia]).
    apply uniqueZ_In, filter_In in Hin as [Hin _]. apply (masked_In mask y v (-1)%Z Hm) in Hin as (i & _ & Hi & E). exists i. auto.
  - intros H v Hv. destruct (Z.neg_nonneg_cases v) as [|Hv0]; [unfold lenZ; lia|].
    assert (Hincl : incl (arange (v + 1)) (uniqueZ L)).
    { intros u Hu. apply arange_In in Hu. assert (Hu' : In u y) by (apply (Hc v u Hv); lia). destruct (H u Hu' ltac:(lia)) as (i & Hi & E). apply uniqueZ_In, filter_In. split; [|lia].
      apply (masked_In mask y u (-1)%Z Hm). exists i. split; [|auto]. destruct (Nat.lt_ge_cases i (List.length y)) as [|Hge]; [assumption|]. rewrite nth_overflow in Hi by lia. discriminate. }
    assert (Hx := NoDup_incl_length (arange_NoDup (v + 1)) Hincl). rewrite arange_length in Hx. unfold lenZ. lia.
Qed.
(* the labels of unlabelled nodes do not change an accepted result *)
Lemma lp_ignores_hidden n ei weight y y' mask sp d d' : (exists i, has_label y mask i) ->
  (forall i, nth i mask false = true -> nth i y (-1)%Z = nth i y' (-1)%Z) ->
  label_propagation root eps n ei weight y mask sp = Ok d -> label_propagation root eps n ei weight y' mask sp = Ok d' -> d = d'.
Proof.
  intros Hl Hs H H'. unfold label_propagation in *. inv_bind H. destruct a as [G [Y k]]. inv_bind H'. destruct a as [G' [Y' k']]. apply prepare_ok in E as (Hv & Hn & HE & Hy & Hm & Ek & Hk & Hlt & EY). apply prepare_ok in E0 as (Hv' & _ & _ & Hy' & _ & Ek' & Hk' & Hlt' & EY').
  rewrite Hv in Hv'. injection Hv' as <-.
  assert (Hmk : masked mask y = masked mask y').
  { unfold masked. assert (Hx : forall m (a b : list Z), List.length a = List.length b -> (forall i, nth i m false = true -> nth i a (-1)%Z = nth i b (-1)%Z) -> map snd (filter fst (combine m a)) = map snd (filter fst (combine m b))).
    { induction m as [|x m IH]; intros [|u a] [|v b] Hab Hi; try reflexivity; try discriminate. cbn [combine filter fst]. cbn [List.length] in Hab. assert (IH' := IH a b ltac:(lia) (fun i => Hi (S i))). destruct x; [|exact IH']. cbn [map snd]. rewrite IH'. f_equal. apply (Hi O). reflexivity. }
    apply Hx; [lia|exact Hs]. }
  assert (Hl' : exists i, has_label y' mask i) by (destruct Hl as (i & Hi & Hi2); exists i; split; [exact Hi|rewrite <- (Hs i Hi); exact Hi2]).
  assert (Ekk : k = k') by (rewrite Ek, Ek'; rewrite (proj1 (labelled_classes y mask ltac:(lia) Hl)), (proj1 (labelled_classes y' mask ltac:(lia) Hl')), Hmk; reflexivity).
  assert (EYY : Y = Y').
  { rewrite EY, EY', Ekk. clear - Hy Hy' Hs. assert (Hlen : List.length y = List.length y') by lia. clear Hy Hy'. unfold zero_unlabelled. revert y y' Hlen Hs. induction mask as [|x m IH]; intros [|u a] [|v b] Hab Hi; try reflexivity; try discriminate.
    cbn [map combine fst snd]. cbn [List.length] in Hab. rewrite (IH a b ltac:(lia) (fun i => Hi (S i))). f_equal. destruct x.
    - assert (Ex := Hi O eq_refl). cbn [nth] in Ex. rewrite Ex. reflexivity.
    - unfold onehot_row. rewrite !map_map. reflexivity. }
  rewrite <- Ekk, <- EYY in H'. congruence.
Qed.
End Accept.

(* ---- the specification's graph, shares and class counts are the program's *)
Lemma validate_graph_edges n ei weight E : validate_graph n ei weight = Ok E -> graph_edges n ei weight E.
Proof.
  intros H. destruct (validate_graph_ok _ _ _ _ H) as (Hn & Hr & HE & Hl & _).
  set (w := match weight with None => map (fun _ => 1) ei | Some l => l end) in *.
  split; [exact Hn|]. split; [pose proof (combine_length ei w) as Lc; rewrite HE; eapply eq_trans; [exact Lc|]; lia|]. split.
  - intros e He. specialize (Hr e He). cbn in Hr. lia.
  - intros m e Hm. rewrite HE in Hm.
    assert (Hc : forall (A B : Type) (l : list A) (l' : list B) m a b, nth_error (combine l l') m = Some (a, b) -> nth_error l m = Some a /\ nth_error l' m = Some b).
    { clear. intros A B l. induction l as [|x l IH]; intros [|y l'] [|m] a b H; cbn in *; try discriminate; [injection H as <- <-; auto|apply IH, H]. }
    destruct e as [[a b] x]. destruct (Hc _ _ _ _ _ _ _ Hm) as [H1 H2]. cbn [e_src e_dst e_w fst snd]. split; [exact H1|].
    destruct weight as [l|]; [split; [exact Hl|exact H2]|]. unfold w in H2. apply nth_error_In in H2. apply in_map_iff in H2 as (? & <- & _). reflexivity.
Qed.
Lemma normalised_edge_share root eps mode E e : normalised root eps mode E e = edge_share root eps mode E e.
Proof. destruct mode; reflexivity. Qed.
Lemma masked_shown y mask v : (0 <= v)%Z -> (In v (masked mask y) <-> exists i, nth i mask false = true /\ nth i y (-1)%Z = v).
Proof.
  intros Hv. unfold masked. split.
  - intros H. apply in_map_iff in H as ([b x] & Hx & H). cbn in Hx. subst x. apply filter_In in H as [H Hb]. cbn in Hb. subst b.
    revert y H. induction mask as [|m mask IH]; intros [|z y] H; cbn in H; try contradiction. destruct H as [H|H].
    + injection H as -> ->. exists O. split; reflexivity.
    + destruct (IH y H) as (i & H1 & H2). exists (S i). split; assumption.
  - intros (i & H1 & H2). apply in_map_iff. exists (true, v). split; [reflexivity|]. apply filter_In. split; [|reflexivity].
    revert i y H1 H2. induction mask as [|m mask IH]; intros [|i] [|z y] H1 H2; cbn in *; try discriminate; try lia; subst; auto. right. apply (IH i y); auto.
Qed.
Lemma propagation_class_count y mask : class_count y mask (Z.to_nat (propagation_classes y mask)).
Proof.
  assert (Hs : forall v, In v (filter (fun v => (v >=? 0)%Z) (masked mask y)) <-> shown_class y mask v).
  { intros v. rewrite filter_In. unfold shown_class. split.
    - intros [H H0]. assert (0 <= v)%Z by lia. split; [assumption|]. apply masked_shown; assumption.
    - intros [H0 H]. split; [apply masked_shown; assumption|lia]. }
  assert (Hv : forall v, In v (filter (fun v => (v >=? 0)%Z) y) <-> (0 <= v)%Z /\ In v y).
  { intros v. rewrite filter_In. split; intros [A B]; split; auto; lia. }
  assert (Hc : forall l : list Z, Z.to_nat (Z.max 1 (n_distinct l)) = Nat.max 1 (List.length (uniqueZ l))) by (intros l; unfold n_distinct, lenZ; lia).
  assert (Hu : forall l, NoDup (uniqueZ l)) by (intros l; apply uniqueZ_NoDup).
  unfold propagation_classes. cbv zeta. destruct (existsb (fun b => b) mask) eqn:Em.
  - destruct (filter (fun v => (v >=? 0)%Z) (masked mask y)) as [|a l] eqn:El.
    + exists (uniqueZ (filter (fun v => (v >=? 0)%Z) y)). split; [apply Hu|]. split; [apply Hc|]. right. split.
      * intros [v Hv']. apply Hs in Hv'. exact Hv'.
      * intros v. rewrite uniqueZ_In. apply Hv.
    + exists (uniqueZ (a :: l)). split; [apply Hu|]. split; [apply Hc|]. left. split.
      * exists a. apply Hs. left. reflexivity.
      * intros v. rewrite uniqueZ_In. apply Hs.
  - exists (uniqueZ (filter (fun v => (v >=? 0)%Z) y)). split; [apply Hu|]. split; [apply Hc|]. right. split.
    + intros (v & _ & i & Hi & _). assert (existsb (fun b => b) mask = true); [|congruence]. apply existsb_exists. exists true. split; [|reflexivity].
      rewrite <- Hi. apply nth_In. destruct (Nat.lt_ge_cases i (List.length mask)) as [|Hge]; [assumption|]. rewrite nth_overflow in Hi by assumption. discriminate.
    + intros v. rewrite uniqueZ_In. apply Hv.
Qed.
Lemma infer_class_range y : class_range y (Z.to_nat (infer_num_classes y)).
Proof.
  unfold infer_num_classes, class_range.
  assert (Hv : forall v, In v (filter (fun v => (v >=? 0)%Z) y) <-> (0 <= v)%Z /\ In v y).
  { intros v. rewrite filter_In. split; intros [A B]; split; auto; lia. }
  assert (Hm : forall l : list Z, l <> [] -> (forall v, In v l -> (0 <= v)%Z) -> In (fold_right Z.max 0%Z l) l /\ forall v, In v l -> (v <= fold_right Z.max 0 l)%Z).
  { clear. induction l as [|a l IH]; intros Hl Hp; [contradiction|]. destruct l as [|b l].
    - assert (0 <= a)%Z by (apply Hp; left; reflexivity). cbn. replace (Z.max a 0) with a by lia. split; [left; reflexivity|]. intros v [->|[]]. lia.
    - destruct IH as [IH1 IH2]; [discriminate|intros v Hv; apply Hp; right; exact Hv|]. change (fold_right Z.max 0%Z (a :: b :: l)) with (Z.max a (fold_right Z.max 0%Z (b :: l))).
      split.
      + destruct (Z.max_spec a (fold_right Z.max 0%Z (b :: l))) as [[_ ->]|[_ ->]]; [right; exact IH1|left; reflexivity].
      + intros v [->|Hv]; [lia|]. specialize (IH2 v Hv). lia. }
  destruct (filter (fun v => (v >=? 0)%Z) y) as [|a l] eqn:El.
  - split; [lia|]. split; [|left; reflexivity]. intros v Hy. destruct (Z_lt_le_dec v 0) as [|H]; [lia|]. exfalso. apply (Hv v). auto.
  - destruct (Hm (a :: l)) as [H1 H2]; [discriminate|intros v H; apply Hv, H|]. set (x := fold_right Z.max 0%Z (a :: l)) in *. apply Hv in H1 as [H1 H1'].
    split; [lia|]. split.
    + intros v Hy. destruct (Z_lt_le_dec v 0) as [|H]; [lia|]. specialize (H2 v (proj2 (Hv v) (conj H Hy))). lia.
    + right. replace (Z.of_nat (Z.to_nat (Z.max 1 (x + 1))) - 1)%Z with x by lia. exact H1'.
Qed.
Lemma class_range_unique y k k' : class_range y k -> class_range y k' -> k = k'.
Proof.
  intros (H1 & H2 & H3) (H1' & H2' & H3'). destruct H3 as [->|H3], H3' as [->|H3']; auto; try specialize (H2 _ H3'); try specialize (H2' _ H3); lia.
Qed.
Lemma nth_error_ext_eq {A} : forall l l' : list A, (forall m, nth_error l m = nth_error l' m) -> l = l'.
Proof.
  induction l as [|a l IH]; intros [|b l'] H; auto; [specialize (H O); discriminate|specialize (H O); discriminate|].
  pose proof (H O) as H0. injection H0 as ->. f_equal. apply IH. intros m. exact (H (S m)).
Qed.
Lemma graph_edges_unique n ei weight E E' : graph_edges n ei weight E -> graph_edges n ei weight E' -> E = E'.
Proof.
  intros (_ & L & _ & H) (_ & L' & _ & H'). apply nth_error_ext_eq. intros m.
  destruct (nth_error E m) as [e|] eqn:Em, (nth_error E' m) as [e'|] eqn:Em'; auto.
  - destruct (H _ _ Em) as [A B], (H' _ _ Em') as [A' B']. f_equal. destruct e as [[a b] w], e' as [[a' b'] w']. cbn [e_src e_dst e_w fst snd] in *.
    assert ((a, b) = (a', b')) by congruence. assert (w = w') by (destruct weight; [destruct B, B'; congruence|congruence]). congruence.
  - apply nth_error_None in Em'. assert (nth_error E m <> None) by congruence. apply nth_error_Some in H0. lia.
  - apply nth_error_None in Em. assert (nth_error E' m <> None) by congruence. apply nth_error_Some in H0. lia.
Qed.
