From Coq Require Import Arith QArith Permutation Lia Qfield.
From Verif Require TbackProofs ScrProofs.
From Verif Require Import Prelude SupervisedModel SupervisedSpec SupervisedProofs TclfModel TclfSpec TclfProofs AftModel AftSpec.
Local Open Scope list_scope.
Local Notation length := List.length.

Lemma nth_firstn (l : list Q) : forall n k, nth_error (firstn n l) k = if Nat.ltb k n then nth_error l k else None.
Proof. induction l as [|a l IH]; intros n k; [rewrite firstn_nil; destruct (Nat.ltb k n); destruct k; reflexivity|]. destruct n as [|n]; [destruct k; reflexivity|]. destruct k as [|k]; [reflexivity|]. exact (IH n k). Qed.
Lemma nth_skipn (l : list Q) : forall n j, nth_error (skipn n l) j = nth_error l (n + j).
Proof. induction l as [|a l IH]; intros [|n] j; cbn; try reflexivity; [destruct j; reflexivity|apply IH]. Qed.
Lemma waves_ok n l data : length (waves n l data) = n /\ forall i, (i < n)%nat -> exists r, nth_error (waves n l data) i = Some r /\ forall j, nth_error r j = if Nat.ltb j l then nth_error data (i * l + j) else None.
Proof.
  unfold waves. split; [rewrite map_length; apply seq_length|]. intros i Hi. exists (firstn l (skipn (i * l) data)). split; [|intros j; rewrite nth_firstn, nth_skipn; reflexivity].
  rewrite nth_error_map. rewrite (nth_error_nth' (seq 0 n) 0%nat) by (rewrite seq_length; exact Hi). rewrite seq_nth by exact Hi. reflexivity.
Qed.
Lemma prepare_ok x rows : prepare x = Ok rows -> read_as x rows.
Proof.
  unfold prepare. destruct (x_tensor x) eqn:Et; cbn [negb]; [|discriminate]. intros H. split; [exact Et|]. destruct (x_shape x) as [|a [|b [|c [|d s]]]]; try discriminate.
  - injection H as <-. exists 1%nat, a. destruct (waves_ok 1 a (x_data x)) as [H1 H2]. split; [constructor|]. split; assumption.
  - injection H as <-. exists a, b. destruct (waves_ok a b (x_data x)) as [H1 H2]. split; [constructor|]. split; assumption.
  - destruct (Nat.eqb_spec b 1) as [->|]; cbn [negb] in H; [|discriminate]. injection H as <-. exists a, c. destruct (waves_ok a c (x_data x)) as [H1 H2]. split; [constructor|]. split; assumption.
Qed.
Lemma prepare_can x : (exists rows, prepare x = Ok rows) <-> x_tensor x = true /\ exists n l, wave_shape (x_shape x) n l.
Proof.
  split.
  - intros [rows H]. destruct (prepare_ok _ _ H) as (H1 & n & l & H2 & _). eauto.
  - intros (Ht & n & l & Hs). unfold prepare. rewrite Ht. cbn [negb]. destruct Hs; cbn; eauto.
Qed.
Lemma prepare_err x e : prepare x = Err e -> e = SupervisedError.
Proof. unfold prepare. destruct (x_tensor x); cbn [negb]; [|congruence]. destruct (x_shape x) as [|a [|b [|c [|d s]]]]; try congruence. destruct (negb (Nat.eqb b 1)); congruence. Qed.

Lemma mean_ok w fr : mean_of w fr (mean w fr).
Proof.
  unfold mean_of, mean. split; [rewrite map_length; apply seq_length|]. intros j Hj Hf. rewrite (TbackProofs.nth_map_lt _ (seq 0 w) j 0%nat 0%Q) by (rewrite seq_length; exact Hj). rewrite seq_nth by exact Hj. cbn [plus].
  field. destruct fr as [|a fr]; [congruence|]. unfold Qeq. cbn. lia.
Qed.
Lemma layer_last a l w m : tensor_rows (last l a) w m -> layer (VList (a :: l)) w m /\ layer (VTuple (a :: l)) w m.
Proof.
  intros H. assert (E : a :: l = removelast (a :: l) ++ [last l a]).
  { rewrite (app_removelast_last a (l := a :: l)) at 1 by discriminate. f_equal. f_equal. destruct l as [|c l]; [reflexivity|]. cbn [last]. clear. revert c. induction l as [|d l IH]; intros c; [reflexivity|]. cbn [last] in *. apply IH. }
  rewrite E. split; constructor; exact H.
Qed.
Lemma tensor_features v w m : match v with Frames w l => Ok (w, map (mean w) l) | Rows w l => Ok (w, l) | _ => Err SupervisedError end = Ok (w, m) -> tensor_rows v w m.
Proof. destruct v as [w' l|w' l| | | |]; try discriminate; intros [= <- <-]; constructor. induction l as [|f l IH]; constructor; [apply mean_ok|exact IH]. Qed.
Lemma features_ok out w m : features out = Ok (w, m) -> answers out w m.
Proof.
  assert (L : forall v, (do feats <- match v with VTuple (v :: l) | VList (v :: l) => Ok (last l v) | VTuple [] | VList [] => Err IndexError | v => Ok v end; match feats with Frames w l => Ok (w, map (mean w) l) | Rows w l => Ok (w, l) | _ => Err SupervisedError end) = Ok (w, m) -> layer v w m).
  { intros [w' l|w' l| |[|a l]|[|a l]|]; cbn [bind]; intros H; try discriminate; try (apply layer_self, tensor_features, H). - apply layer_last, tensor_features, H. - apply layer_last, tensor_features, H. }
  unfold features. intros H. destruct out as [w' l|w' l| |l|[|v l]|]; cbn [bind] in H; try discriminate; first [apply answers_tuple, L, H|apply answers_other; [discriminate|apply L, H]].
Qed.
(* which answers are read *)
Lemma features_can out : (exists w m, features out = Ok (w, m)) <-> exists w m, answers out w m.
Proof.
  split; [intros (w & m & H); exists w, m; apply features_ok, H|]. intros (w & m & H).
  assert (T : forall v w m, tensor_rows v w m -> exists w m, match v with Frames w l => Ok (w, map (mean w) l) | Rows w l => Ok (w, l) | _ => Err SupervisedError end = Ok (w, m)) by (intros v w' m' []; eauto).
  assert (LL : forall l v (d : value), last (l ++ [v]) d = v) by (induction l as [|a l IH]; intros v d; [reflexivity|]; cbn [app last]; destruct (l ++ [v]) eqn:E; [destruct l; discriminate|]; rewrite <- E; apply IH).
  assert (L : forall v w m, layer v w m -> exists w m, (do feats <- match v with VTuple (v :: l) | VList (v :: l) => Ok (last l v) | VTuple [] | VList [] => Err IndexError | v => Ok v end; match feats with Frames w l => Ok (w, map (mean w) l) | Rows w l => Ok (w, l) | _ => Err SupervisedError end) = Ok (w, m)).
  { intros v w' m' [v0 w0 m0 H0|l v0 w0 m0 H0|l v0 w0 m0 H0].
    - destruct H0; cbn [bind]; eauto.
    - destruct (T _ _ _ H0) as (w1 & m1 & E). destruct l as [|a l]; cbn [app bind]; [cbn [last]|rewrite LL]; eauto.
    - destruct (T _ _ _ H0) as (w1 & m1 & E). destruct l as [|a l]; cbn [app bind]; [cbn [last]|rewrite LL]; eauto. }
  unfold features. destruct H as [v l w m H|v w m N H]; [apply L in H; exact H|]. apply L in H. destruct v as [w' l|w' l| |l|l|]; try exact H. destruct (N l eq_refl).
Qed.

Section Training.
Context {B H Op G : Type}.
Variable run : bool -> list (list Q) -> B * G -> value * (B * G).
Variable randperm : nat -> G -> list nat * G.
Variable learn_head : list (list Q * nat) -> H * Op -> H * Op.
Variable learn : list (list Q * nat) -> list (list Q) -> B * H * Op -> B * H * Op.
Variables (freeze : bool) (width : nat) (rows : list (list Q)) (y classes : list Z) (codes : list nat).
Hypothesis Hcodes : encode_labels y = (codes, classes).
Hypothesis Hn : length rows = length y.
Let data := combine rows codes.
Lemma adata_length : length data = length y.
Proof. unfold data. rewrite combine_length, Hn. destruct (encode_labels_spec _ _ _ Hcodes) as (_ & Hl & _). lia. Qed.
Lemma adata_entry i : (i < length y)%nat -> exists e, nth_error data i = Some e /\ entry_of rows y classes i e.
Proof.
  intros Hi. destruct (encode_labels_spec _ _ _ Hcodes) as (_ & Hl & Hc). destruct (Hc i Hi) as [H1 H2]. destruct (nth_error rows i) as [r|] eqn:Er; [|apply nth_error_None in Er; lia].
  exists (r, nth i codes 0%nat). split; [|split; [exact Er|split; assumption]]. apply ScrProofs.combine_nth_error; [exact Er|]. apply nth_error_nth'. lia.
Qed.
Lemma abatch_entries b : (forall i, In i b -> (i < length y)%nat) -> Forall2 (entry_of rows y classes) b (batch_of data b).
Proof.
  unfold batch_of. induction b as [|i b IH]; intros Hb; [constructor|]. cbn [flat_map]. destruct (adata_entry i (Hb i (or_introl eq_refl))) as (e & -> & He). cbn [app]. constructor; [exact He|]. apply IH. intros j Hj. apply Hb. right. exact Hj.
Qed.
Lemma epoch_ok bs : (forall b i, In b bs -> In i b -> (i < length y)%nat) -> forall s s', epoch B H Op G run learn_head learn freeze width data bs s = (s', Ok tt) -> stepped run learn_head learn freeze width rows y classes bs s s'.
Proof.
  induction bs as [|i bs IH]; intros Hb s s'; cbn [epoch]; [intros [= <-]; constructor|]. assert (HE := abatch_entries i (fun j Hj => Hb i j (or_introl eq_refl) Hj)). assert (IH' := IH (fun b' j Hb' => Hb b' j (or_intror Hb'))).
  destruct (batch_step B H Op G run learn_head learn freeze width (batch_of data i) s) as [s1 r] eqn:ES. unfold batch_step in ES. destruct s as [[[b h] o] g]. destruct (run (negb freeze) (map fst (batch_of data i)) (b, g)) as [out [b1 g1]] eqn:ER.
  destruct (features out) as [[w f]|e] eqn:EF; cbn [bind] in ES; [|injection ES as <- <-; discriminate]. unfold fits in ES. cbn [fst snd] in ES. destruct (Nat.eqb_spec w width) as [->|]; cbn [andb] in ES; [|injection ES as <- <-; discriminate]. destruct (Nat.eqb_spec (length f) (length (batch_of data i))) as [EL|]; [|injection ES as <- <-; discriminate].
  apply features_ok in EF. destruct freeze eqn:Ez.
  - destruct (learn_head (combine f (map snd (batch_of data i))) (h, o)) as [h1 o1] eqn:EH. injection ES as <- <-. intros HS. eapply stepped_head; [reflexivity|exact HE|exact ER|exact EF|exact EL|exact EH|]. apply IH', HS.
  - destruct (learn (batch_of data i) f (b1, h, o)) as [[b2 h1] o1] eqn:EH. injection ES as <- <-. intros HS. eapply stepped_both; [reflexivity|exact HE|exact ER|exact EF|exact EL|exact EH|]. apply IH', HS.
Qed.
Hypothesis Hperm : permutes randperm.
Variable size : nat.
Hypothesis Hsize : (0 < size)%nat.
Lemma train_ok n : forall s s', train B H Op G run randperm learn_head learn freeze width size data n s = (s', Ok tt) -> trained run randperm learn_head learn freeze width size rows y classes n s s'.
Proof.
  induction n as [|n IH]; intros s s'; cbn [train]; [intros [= <-]; constructor|]. destruct s as [[[b h] o] g]. rewrite adata_length. assert (HP := Hperm (length y) g). destruct (randperm (length y) g) as [idx g'] eqn:E. cbn [fst] in HP.
  assert (HL : length idx = length y) by (rewrite (Permutation_length HP); apply seq_length). destruct (batches_spec size Hsize (length y) idx ltac:(lia)) as (B1 & B2 & B3).
  assert (Hin : forall b i, In b (batches (length y) size idx) -> In i b -> (i < length y)%nat).
  { intros b0 i Hb Hi. assert (Hx : In i idx) by (rewrite <- B1; apply in_concat; eauto). apply (Permutation_in i HP) in Hx. apply in_seq in Hx. lia. }
  destruct (epoch B H Op G run learn_head learn freeze width data (batches (length y) size idx) (b, h, o, g')) as [s1 [[]|e]] eqn:EE; [|discriminate]. intros HT. econstructor; [|rewrite E, B1; reflexivity|apply (epoch_ok _ Hin _ _ EE)|apply IH, HT]. split; [rewrite B1; exact HP|]. split; assumption.
Qed.
(* a frozen backbone stays as it was *)
Lemma stepped_frozen : eval_keeps run -> freeze = true -> forall bs s s', stepped run learn_head learn freeze width rows y classes bs s s' -> fst (fst (fst s')) = fst (fst (fst s)).
Proof.
  intros HK Hf bs s s' HS. induction HS as [s|i bs E out f b h o g b' g' h' o' s H1 H2 H3 H4 H5 H6 H7 IH|i bs E out f b h o g b' g' b2 h' o' s H1]; [reflexivity| |congruence]. cbn [fst] in *. rewrite IH. assert (K := HK (map fst E) (b, g)). rewrite H3 in K. cbn in K. congruence.
Qed.
Lemma trained_frozen : eval_keeps run -> freeze = true -> forall n s s', trained run randperm learn_head learn freeze width size rows y classes n s s' -> fst (fst (fst s')) = fst (fst (fst s)).
Proof. intros HK Hf n s s' HS. induction HS as [s|n b h o g bs g' s s' H1 H2 H3 H4 IH]; [reflexivity|]. rewrite IH, (stepped_frozen HK Hf _ _ _ H3). reflexivity. Qed.
(* the number of outputs *)
Variable outputs : H -> nat.
Hypothesis Ho1 : forall E s, outputs (fst (learn_head E s)) = outputs (fst s).
Hypothesis Ho2 : forall E f s, outputs (snd (fst (learn E f s))) = outputs (snd (fst s)).
Lemma stepped_outputs bs s s' : stepped run learn_head learn freeze width rows y classes bs s s' -> outputs (snd (fst (fst s'))) = outputs (snd (fst (fst s))).
Proof.
  intros HS. induction HS as [s|i bs E out f b h o g b' g' h' o' s H1 H2 H3 H4 H5 H6 H7 IH|i bs E out f b h o g b' g' b2 h' o' s H1 H2 H3 H4 H5 H6 H7 IH]; [reflexivity| |]; cbn [fst snd] in *; rewrite IH.
  - assert (K := Ho1 (combine f (map snd E)) (h, o)). rewrite H6 in K. exact K.
  - assert (K := Ho2 E f (b', h, o)). rewrite H6 in K. exact K.
Qed.
Lemma trained_outputs n s s' : trained run randperm learn_head learn freeze width size rows y classes n s s' -> outputs (snd (fst (fst s'))) = outputs (snd (fst (fst s))).
Proof. intros HS. induction HS as [s|n b h o g bs g' s s' H1 H2 H3 H4 IH]; [reflexivity|]. rewrite IH, (stepped_outputs _ _ _ H3). reflexivity. Qed.
End Training.
