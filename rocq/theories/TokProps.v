(* C108, C109: the tokenizers. *)
From Coq Require Import String ZifyBool ZifyNat.
From Verif Require Import Prelude TokModel TokSpec TokProofs.
Local Open Scope string_scope.
Local Open Scope Z_scope.
Local Open Scope list_scope.
Local Notation length := List.length.

(* C108: fitting succeeds exactly when every fit position exists, and a fitted step transforms every
   list of texts exactly when its width is not negative; a step that was not fitted refuses. *)
Theorem C108_returns : forall words c texts fit others,
  ((exists voc, vocab_fit words c texts fit = Ok voc) <->
     (forall i, In i fit -> - lenZ texts <= i < lenZ texts)) /\
  (forall voc, vocab_fit words c texts fit = Ok voc ->
     ((exists e, vocab_transform words c (Some voc) others = Ok e) <-> 0 <= v_max c)) /\
  vocab_transform words c None others = Err PreprocessError.
Proof.
  intros words c texts fit others. split; [|split; [|reflexivity]].
  - rewrite <- take_rows_total. unfold vocab_fit. split; intros (x & H).
    + destruct (take_rows texts fit) as [chosen|e]; [eauto|discriminate].
    + rewrite H. cbn [bind]. eauto.
  - intros voc F. apply vocab_fit_ok in F. destruct F as (chosen & _ & ->).
    unfold vocab_transform. destruct (Z.ltb_spec (v_max c) 0) as [L|L].
    + split; [intros (e & H); discriminate|lia].
    + pose proof (built_has_unk c (flat_map words chosen)) as U.
      destruct (dget _ (v_unk c)) as [u|]; [|congruence]. split; [auto|eauto].
Qed.

Definition plain := {| v_size := 5; v_max := 4; v_min := 2; v_pad := "<PAD>"; v_unk := "<UNK>" |}.
Definition corpus : list string := ["the cat sat"; "The dog"; "a cat and the dog"; "the end zebra zebra"].
Example C108_returns_case :
  (forall i, In i [0; 1; -2] -> - lenZ corpus <= i < lenZ corpus) /\ 0 <= v_max plain /\
  exists voc, vocab_fit ascii_words plain corpus [0; 1; -2] = Ok voc.
Proof.
  split; [cbn; intros i [<-|[<-|[<-|[]]]]; lia|]. split; [cbn; lia|]. eexists. vm_compute. reflexivity.
Qed.

(* C108: the two tables have one row per text and max_length columns; a position holds a word of the
   text exactly where the mask is 1, and elsewhere mask and identifier are 0. *)
Theorem C108_table : forall words c texts fit others voc e,
  vocab_fit words c texts fit = Ok voc -> vocab_transform words c (Some voc) others = Ok e ->
  table (t_ids e) (length others) (v_max c) /\ table (t_mask e) (length others) (v_max c) /\
  forall i j t, nth_error others i = Some t -> Z.of_nat j < v_max c ->
    (nth_error (words t) j <> None -> cell (t_mask e) i j = Some 1) /\
    (nth_error (words t) j = None -> cell (t_mask e) i j = Some 0 /\ cell (t_ids e) i j = Some 0).
Proof.
  intros words c texts fit others voc e _ T. unfold vocab_transform in T.
  destruct (Z.ltb_spec (v_max c) 0) as [L|L]; [discriminate|].
  destruct (dget voc (v_unk c)) as [u|]; [|discriminate]. injection T as <-. cbn [t_ids t_mask].
  split; [now apply rows_table|]. split; [now apply rows_table|].
  intros i j t Ht Hj. split.
  - intros H. destruct (nth_error (words t) j) as [w|] eqn:W; [|congruence].
    apply (rows_word (v_max c) words (fun _ => 1) others L i j t w Ht W Hj).
  - intros H. split.
    + apply (rows_pad (v_max c) words (fun _ => 1) others L i j t Ht H Hj).
    + apply (rows_pad (v_max c) words (vocab_id voc u) others L i j t Ht H Hj).
Qed.

(* C108: the identifier of a word.  When the two special words are different and no text contains
   them, a word of the fit texts with r words before it (more frequent ones, and equally frequent
   ones seen earlier) gets 2 + r if r < vocab_size - 2 and it occurs min_freq times; every other word
   gets 1. *)
Theorem C108_identifiers : forall words c texts fit chosen others voc e,
  v_pad c <> v_unk c -> (forall t, ~ In (v_pad c) (words t) /\ ~ In (v_unk c) (words t)) ->
  vocab_fit words c texts fit = Ok voc -> vocab_transform words c (Some voc) others = Ok e ->
  Forall2 (fun i x => designates texts i x) fit chosen ->
  let seen := flat_map words chosen in
  forall i j t w, nth_error others i = Some t -> nth_error (words t) j = Some w -> Z.of_nat j < v_max c ->
    (In w seen -> exists r, ranked seen w r /\
       cell (t_ids e) i j =
         Some (if (r <? v_size c - 2) && (v_min c <=? occurrences seen w) then 2 + r else 1)) /\
    (~ In w seen -> cell (t_ids e) i j = Some 1).
Proof.
  intros words c texts fit chosen others voc e A S F T D seen i j t w Ht Hw Hj.
  apply vocab_fit_ok in F. destruct F as (chosen' & D' & ->).
  rewrite (chosen_unique _ _ _ _ D' D) in T. clear D' chosen'. fold seen in T.
  assert (SP : ~ In (v_pad c) seen /\ ~ In (v_unk c) seen).
  { unfold seen. rewrite !in_flat_map. split; intros (x & _ & H); apply S in H; exact H. }
  unfold vocab_transform in T. destruct (Z.ltb_spec (v_max c) 0) as [L|L]; [discriminate|].
  rewrite (built_unk c seen A SP) in T. injection T as <-. cbn [t_ids].
  pose proof (rows_word (v_max c) words (vocab_id (built c seen) 1) others L i j t w Ht Hw Hj) as R.
  cbv zeta in R. apply nth_error_In in Hw.
  split.
  - intros Iw. destruct (has_rank seen w Iw) as (r & Rk). exists r. split; [exact Rk|].
    rewrite R. unfold vocab_id. rewrite (built_known c seen A SP w r Iw Rk).
    destruct ((r <? v_size c - 2) && (v_min c <=? occurrences seen w)); reflexivity.
  - intros Nw. rewrite R. unfold vocab_id.
    rewrite (built_unknown c seen A SP w Nw); [reflexivity| |]; intros ->; apply S in Hw; exact Hw.
Qed.

(* C108: the hypothesis on the special words is met by the default ones, on ASCII texts. *)
Theorem C108_default_special : forall t, ~ In "<PAD>" (ascii_words t) /\ ~ In "<UNK>" (ascii_words t).
Proof. intros t. split; intros H; apply ascii_words_low in H; discriminate. Qed.

Example C108_identifiers_case :
  exists voc e, vocab_fit ascii_words plain corpus [0; 1; -2] = Ok voc /\
    vocab_transform ascii_words plain (Some voc) corpus = Ok e /\
    t_ids e = [[2; 3; 1; 0]; [2; 4; 0; 0]; [1; 3; 1; 2]; [2; 1; 1; 1]] /\ t_vocab e = 5 /\
    ranked (flat_map ascii_words ["the cat sat"; "The dog"; "a cat and the dog"]) "the" 0.
Proof.
  eexists. eexists. split; [vm_compute; reflexivity|]. split; [vm_compute; reflexivity|].
  split; [vm_compute; reflexivity|]. split; [vm_compute; reflexivity|].
  exists []. split; [constructor|]. split; [reflexivity|]. intros a. split; [intros []|].
  intros (I & H). change (flat_map ascii_words ["the cat sat"; "The dog"; "a cat and the dog"])
    with ["the"; "cat"; "sat"; "the"; "dog"; "a"; "cat"; "and"; "the"; "dog"] in *.
  assert (O : occurrences ["the"; "cat"; "sat"; "the"; "dog"; "a"; "cat"; "and"; "the"; "dog"] "the" = 3) by reflexivity.
  rewrite O in H. cbn [In] in I.
  destruct I as [<-|[<-|[<-|[<-|[<-|[<-|[<-|[<-|[<-|[<-|[]]]]]]]]]]];
    destruct H as [H|[H F]]; try (vm_compute in H; discriminate H);
    destruct F as (p & q & _ & F1 & F2); contradiction.
Qed.

(* C108: every identifier is smaller than the reported vocabulary size, which is at most
   max(2, vocab_size); two words that both got an identifier of their own (2 or more) share it only
   if they are the same word. *)
Theorem C108_range : forall words c texts fit others voc e,
  v_pad c <> v_unk c -> (forall t, ~ In (v_pad c) (words t) /\ ~ In (v_unk c) (words t)) ->
  vocab_fit words c texts fit = Ok voc -> vocab_transform words c (Some voc) others = Ok e ->
  (forall i j z, cell (t_ids e) i j = Some z -> 0 <= z < t_vocab e) /\ t_vocab e <= Z.max 2 (v_size c) /\
  (forall i j t w i' j' t' w' z,
     nth_error others i = Some t -> nth_error (words t) j = Some w -> Z.of_nat j < v_max c ->
     nth_error others i' = Some t' -> nth_error (words t') j' = Some w' -> Z.of_nat j' < v_max c ->
     cell (t_ids e) i j = Some z -> cell (t_ids e) i' j' = Some z -> 2 <= z -> w = w').
Proof.
  intros words c texts fit others voc e A S F T.
  apply vocab_fit_ok in F. destruct F as (chosen & D & ->). set (seen := flat_map words chosen) in *.
  assert (SP : ~ In (v_pad c) seen /\ ~ In (v_unk c) seen).
  { unfold seen. rewrite !in_flat_map. split; intros (x & _ & H); apply S in H; exact H. }
  unfold vocab_transform in T. destruct (Z.ltb_spec (v_max c) 0) as [L|L]; [discriminate|].
  rewrite (built_unk c seen A SP) in T. injection T as <-. cbn [t_ids t_vocab].
  pose proof (built_range c seen A SP (v_unk c) 1 (built_unk c seen A SP)) as B1.
  split; [|split; [now apply built_size|]].
  - intros i j z H. unfold cell in H. rewrite nth_error_map in H.
    destruct (nth_error others i) as [t|]; [cbn [option_map] in H|discriminate].
    apply nth_error_In in H. unfold fill in H. apply in_app_iff in H. destruct H as [H|H].
    + apply in_map_iff in H. destruct H as (w & <- & _). unfold vocab_id.
      destruct (dget (built c seen) w) as [k|] eqn:G; [|exact B1].
      apply (built_range c seen A SP w k G).
    + apply repeat_spec in H. lia.
  - intros i j t w i' j' t' w' z Ht Hw Hj Ht' Hw' Hj' C C' Z2.
    rewrite (rows_word (v_max c) words (vocab_id (built c seen) 1) others L i j t w Ht Hw Hj) in C.
    rewrite (rows_word (v_max c) words (vocab_id (built c seen) 1) others L i' j' t' w' Ht' Hw' Hj') in C'.
    injection C as C. injection C' as C'. unfold vocab_id in C, C'.
    destruct (dget (built c seen) w) as [k|] eqn:G; [|lia].
    destruct (dget (built c seen) w') as [k'|] eqn:G'; [|lia]. subst k k'.
    apply (built_injective c seen A SP w w' z G G').
Qed.
Example C108_range_case :
  v_pad plain <> v_unk plain /\ (forall t, ~ In (v_pad plain) (ascii_words t) /\ ~ In (v_unk plain) (ascii_words t)).
Proof. split; [discriminate|apply C108_default_special]. Qed.

(* C108: the vocabulary is a function of the texts at the fit positions, and each row of the tables is
   a function of its own text. *)
Theorem C108_fit_texts_only : forall words c texts texts' fit,
  lenZ texts' = lenZ texts ->
  (forall i x, In i fit -> designates texts i x -> designates texts' i x) ->
  vocab_fit words c texts' fit = vocab_fit words c texts fit.
Proof.
  intros words c texts texts' fit L H. unfold vocab_fit.
  assert (E : take_rows texts' fit = take_rows texts fit); [|now rewrite E].
  induction fit as [|i fit IH]; [reflexivity|]. cbn [take_rows].
  rewrite IH by (intros j x Hj; apply H; now right).
  destruct (take_one texts i) as [x|err] eqn:T.
  - apply take_one_ok in T. apply H in T; [|now left]. apply take_one_ok in T. now rewrite T.
  - assert (E : take_one texts' i = Err err); [|now rewrite E].
    unfold take_one in T |- *. rewrite L. destruct ((i <? - lenZ texts) || (lenZ texts <=? i)) eqn:B; [exact T|].
    exfalso. destruct (take_one_total texts i) as (x & X); [lia|]. unfold take_one in X. rewrite B in X. congruence.
Qed.
Theorem C108_row_by_row : forall words c voc others e i t,
  vocab_transform words c (Some voc) others = Ok e -> nth_error others i = Some t ->
  exists one, vocab_transform words c (Some voc) [t] = Ok one /\
    t_ids one = match nth_error (t_ids e) i with Some r => [r] | None => [] end /\
    t_mask one = match nth_error (t_mask e) i with Some r => [r] | None => [] end.
Proof.
  intros words c voc others e i t T Ht. unfold vocab_transform in *.
  destruct (v_max c <? 0); [discriminate|]. destruct (dget voc (v_unk c)) as [u|]; [|discriminate].
  injection T as <-. eexists. split; [reflexivity|]. cbn [t_ids t_mask map].
  rewrite !nth_error_map, Ht. split; reflexivity.
Qed.
Example C108_fit_texts_only_case :
  let other := ["the cat sat"; "The dog"; "a cat and the dog"; "something else"] in
  other <> corpus /\ lenZ other = lenZ corpus /\
  vocab_fit ascii_words plain other [0; 1; -2] = vocab_fit ascii_words plain corpus [0; 1; -2].
Proof. split; [discriminate|]. split; vm_compute; reflexivity. Qed.

(* C108 does not extend to special words that can occur in a text (here in lower case): two different
   words of the fit texts get the same identifier, which is also the one of every unknown word. *)
Theorem C108_special_words_refuted :
  exists c texts voc e, v_pad c <> v_unk c /\
    vocab_fit ascii_words c texts [0] = Ok voc /\
    vocab_transform ascii_words c (Some voc) ["unk a zebra"] = Ok e /\
    cell (t_ids e) 0 0 = Some 2 /\ cell (t_ids e) 0 1 = Some 2 /\ cell (t_ids e) 0 2 = Some 2.
Proof.
  exists {| v_size := 10; v_max := 3; v_min := 1; v_pad := "pad"; v_unk := "unk" |}, ["unk a"].
  eexists. eexists. split; [discriminate|]. split; [vm_compute; reflexivity|]. split; [vm_compute; reflexivity|].
  split; [|split]; vm_compute; reflexivity.
Qed.
(* C108 does not extend to a padding word equal to the unknown word: identifiers reach the reported
   vocabulary size. *)
Theorem C108_same_special_refuted :
  exists c texts voc e, vocab_fit ascii_words c texts [0] = Ok voc /\
    vocab_transform ascii_words c (Some voc) ["zebra"] = Ok e /\
    cell (t_ids e) 0 0 = Some 1 /\ t_vocab e = 1.
Proof.
  exists {| v_size := 10; v_max := 1; v_min := 2; v_pad := "<X>"; v_unk := "<X>" |}, ["a"].
  eexists. eexists. split; [vm_compute; reflexivity|]. split; [vm_compute; reflexivity|].
  split; vm_compute; reflexivity.
Qed.

(* C109: the hashing tokenizer returns exactly when its width is not negative; one row per text; the
   mask is 1 exactly on the words; elsewhere mask and identifier are 0; the identifier of a word is a
   function of the word and vocab_size, at least 2, and below vocab_size when vocab_size >= 3. *)
Theorem C109_table : forall lower split digest c texts,
  (forall t, ~ In "" (split t)) ->
  ((exists e, hash_transform lower split digest c texts = Ok e) <-> 0 <= h_max c) /\
  forall e, hash_transform lower split digest c texts = Ok e ->
  table (t_ids e) (length texts) (h_max c) /\ table (t_mask e) (length texts) (h_max c) /\
  forall i j t, nth_error texts i = Some t -> Z.of_nat j < h_max c ->
    let word := nth_error (split (if h_lower c then lower t else t)) j in
    (forall w, word = Some w -> cell (t_mask e) i j = Some 1 /\
       exists z, cell (t_ids e) i j = Some z /\ 2 <= z /\ (3 <= h_size c -> z < h_size c)) /\
    (word = None -> cell (t_mask e) i j = Some 0 /\ cell (t_ids e) i j = Some 0).
Proof.
  intros lower split digest c texts NE. unfold hash_transform.
  destruct (Z.ltb_spec (h_max c) 0) as [L|L].
  - split; [split; [intros (e & H); discriminate|lia]|discriminate].
  - split; [split; [auto|eauto]|]. intros e [= <-]. cbn [t_ids t_mask].
    set (toks := fun t : string => filter (fun w : string => negb (w =? "")%string) (split (if h_lower c then lower t else t))).
    assert (TK : forall t, toks t = split (if h_lower c then lower t else t)).
    { intros t. unfold toks. specialize (NE (if h_lower c then lower t else t)).
      revert NE. generalize (split (if h_lower c then lower t else t)). intros l NE.
      induction l as [|w l IH]; [reflexivity|]. cbn [filter].
      destruct (String.eqb_spec w ""%string) as [->|N]; [exfalso; apply NE; now left|].
      cbn [negb]. f_equal. apply IH. intro H. apply NE. now right. }
    split; [apply (rows_table (h_max c) toks); exact L|]. split; [apply (rows_table (h_max c) toks); exact L|].
    intros i j t Ht Hj. set (word := nth_error (split (if h_lower c then lower t else t)) j).
    assert (TW : nth_error (toks t) j = word) by (unfold word; now rewrite TK). split.
    + intros w Hw. rewrite Hw in TW. split.
      * apply (rows_word (h_max c) toks (fun _ => 1) texts L i j t w Ht TW Hj).
      * exists (hash_token digest (h_size c) w). split.
        -- apply (rows_word (h_max c) toks (hash_token digest (h_size c)) texts L i j t w Ht TW Hj).
        -- unfold hash_token.
           pose proof (Z.mod_pos_bound (digest w) (Z.max 1 (h_size c - 2)) ltac:(lia)). lia.
    + intros Hw. rewrite Hw in TW. split.
      * apply (rows_pad (h_max c) toks (fun _ => 1) texts L i j t Ht TW Hj).
      * apply (rows_pad (h_max c) toks (hash_token digest (h_size c)) texts L i j t Ht TW Hj).
Qed.
(* C109: the same word has the same identifier wherever it occurs, in every call with the same
   vocab_size. *)
Theorem C109_same_word : forall lower split digest c c' texts texts' e e' i j t i' j' t' w,
  (forall t, ~ In "" (split t)) -> h_size c' = h_size c ->
  hash_transform lower split digest c texts = Ok e -> hash_transform lower split digest c' texts' = Ok e' ->
  nth_error texts i = Some t -> nth_error (split (if h_lower c then lower t else t)) j = Some w -> Z.of_nat j < h_max c ->
  nth_error texts' i' = Some t' -> nth_error (split (if h_lower c' then lower t' else t')) j' = Some w -> Z.of_nat j' < h_max c' ->
  cell (t_ids e) i j = cell (t_ids e') i' j' /\ cell (t_ids e) i j <> None.
Proof.
  intros lower split digest c c' texts texts' e e' i j t i' j' t' w NE SZ T T' Ht Hw Hj Ht' Hw' Hj'.
  assert (K : forall cc tx ee ii jj tt, hash_transform lower split digest cc tx = Ok ee ->
     nth_error tx ii = Some tt -> nth_error (split (if h_lower cc then lower tt else tt)) jj = Some w ->
     Z.of_nat jj < h_max cc -> cell (t_ids ee) ii jj = Some (hash_token digest (h_size cc) w)).
  { clear - NE. intros cc tx ee ii jj tt T Ht Hw Hj. unfold hash_transform in T.
    destruct (Z.ltb_spec (h_max cc) 0) as [L|L]; [discriminate|]. injection T as <-. cbn [t_ids].
    set (toks := fun t : string => filter (fun w : string => negb (w =? "")%string) (split (if h_lower cc then lower t else t))).
    apply (rows_word (h_max cc) toks (hash_token digest (h_size cc)) tx L ii jj tt w Ht); [|exact Hj].
    unfold toks. rewrite <- Hw. f_equal. specialize (NE (if h_lower cc then lower tt else tt)).
    revert NE. generalize (split (if h_lower cc then lower tt else tt)). intros l NE.
    induction l as [|x l IH]; [reflexivity|]. cbn [filter].
    destruct (String.eqb_spec x ""%string) as [->|N]; [exfalso; apply NE; now left|].
    cbn [negb]. f_equal. apply IH. intro H. apply NE. now right. }
  rewrite (K c texts e i j t T Ht Hw Hj), (K c' texts' e' i' j' t' T' Ht' Hw' Hj'), SZ. split; congruence.
Qed.
(* C109: whatever the digest, more than vocab_size - 2 different words cannot all have different
   identifiers. *)
Theorem C109_collisions : forall split digest c ws,
  (forall w, In w ws -> split w = [w]) -> 3 <= h_size c -> 1 <= h_max c -> h_lower c = false ->
  NoDup ws -> ~ In "" ws -> h_size c - 2 < lenZ ws ->
  forall lower e, hash_transform lower split digest c ws = Ok e ->
  exists i j w w', (i < j)%nat /\ nth_error ws i = Some w /\ nth_error ws j = Some w' /\ w <> w' /\
    cell (t_ids e) i 0 = cell (t_ids e) j 0.
Proof.
  intros split digest c ws SP SZ MX LO ND NE BIG lower e T.
  set (f := hash_token digest (h_size c)).
  assert (C : forall i w, nth_error ws i = Some w -> cell (t_ids e) i 0 = Some (f w)).
  { intros i w Hw. unfold hash_transform in T. destruct (Z.ltb_spec (h_max c) 0) as [L|L]; [discriminate|].
    injection T as <-. cbn [t_ids].
    apply (rows_word (h_max c) (fun t : string => filter (fun w : string => negb (w =? "")%string) (split (if h_lower c then lower t else t)))
             f ws L i 0%nat w w Hw); [|lia].
    rewrite LO, SP by (eapply nth_error_In; exact Hw). cbn [filter]. destruct (String.eqb_spec w ""%string) as [->|N]; [|reflexivity].
    exfalso. apply NE. apply nth_error_In in Hw. exact Hw. }
  assert (ND' : ~ NoDup (map f ws)).
  { intros H. apply (NoDup_incl_length (l' := map (fun k => 2 + k) (arange (h_size c - 2)))) in H.
    - rewrite map_length in H. unfold arange in H. rewrite !map_length, seq_length in H. unfold lenZ in BIG. lia.
    - intros z Hz. apply in_map_iff in Hz. destruct Hz as (w & <- & _). unfold f, hash_token.
      pose proof (Z.mod_pos_bound (digest w) (Z.max 1 (h_size c - 2)) ltac:(lia)) as B.
      apply in_map. unfold arange. apply in_map_iff.
      exists (Z.to_nat (digest w mod Z.max 1 (h_size c - 2))). split; [lia|].
      apply in_seq. lia. }
  assert (X : exists i j, (i < j)%nat /\ (j < length ws)%nat /\ nth_error (map f ws) i = nth_error (map f ws) j).
  { revert ND'. generalize (map f ws) (map_length f ws). intros l E. rewrite <- E. clear E. induction l as [|x l IH]; intros N.
    - exfalso. apply N. constructor.
    - destruct (in_dec Z.eq_dec x l) as [I|I].
      + apply In_nth_error in I. destruct I as (j & Hj). exists 0%nat, (S j). cbn.
        assert (j < length l)%nat by (apply nth_error_Some; congruence). split; [lia|]. split; [lia|now symmetry].
      + destruct IH as (i & j & H1 & H2 & H3); [intro H; apply N; constructor; assumption|].
        exists (S i), (S j). cbn. split; [lia|]. split; [lia|exact H3]. }
  destruct X as (i & j & Lt & Lj & E).
  destruct (nth_error ws i) as [w|] eqn:Wi; [|apply nth_error_None in Wi; lia].
  destruct (nth_error ws j) as [w'|] eqn:Wj; [|apply nth_error_None in Wj; lia].
  exists i, j, w, w'. split; [exact Lt|]. split; [exact Wi|]. split; [exact Wj|]. split.
  - intros <-. assert (i = j); [|lia]. apply (proj1 (NoDup_nth_error ws) ND); [|congruence].
    apply nth_error_Some. congruence.
  - rewrite (C i w Wi), (C j w' Wj). rewrite !nth_error_map, Wi, Wj in E. exact E.
Qed.
Example C109_collisions_case :
  let ws := ["a"; "b"] in
  (forall w, In w ws -> ascii_split w = [w]) /\ NoDup ws /\ ~ In "" ws /\ 3 - 2 < lenZ ws.
Proof.
  cbv zeta. split; [cbn; intros w [<-|[<-|[]]]; reflexivity|]. split.
  - repeat constructor; cbn; intuition discriminate.
  - split; [cbn; intuition discriminate|reflexivity].
Qed.
(* C109: the last clause fails for vocab_size below 3: the identifier 2 is not below vocab_size. *)
Theorem C109_small_vocabulary_refuted : forall digest,
  exists c e, h_size c = 2 /\ hash_transform ascii_lower ascii_split digest c ["word"] = Ok e /\
    cell (t_ids e) 0 0 = Some 2 /\ ~ 2 < h_size c.
Proof.
  intros digest. exists {| h_size := 2; h_max := 1; h_lower := true |}. eexists.
  split; [reflexivity|]. split; [reflexivity|]. split; [|cbn; lia].
  change (Some (2 + digest "word" mod 1) = Some 2). now rewrite Z.mod_1_r.
Qed.
Example C109_case :
  (forall t, ~ In "" (ascii_split t)) /\
  exists e, hash_transform ascii_lower ascii_split (fun w => Z.of_nat (String.length w) * 7)
    {| h_size := 10; h_max := 3; h_lower := true |} ["The cat"; ""; "a b c d"] = Ok e /\
    t_ids e = [[7; 7; 0]; [0; 0; 0]; [9; 9; 9]] /\ t_mask e = [[1; 1; 0]; [0; 0; 0]; [1; 1; 1]].
Proof.
  split.
  - intros t. unfold ascii_split. assert (G : forall s cur, ~ In "" (cut s cur)); [|apply G].
    induction s as [|ch s IH]; intros cur; cbn [cut].
    + destruct cur; cbn [flush In]; [tauto|]. intros [H|[]]. discriminate.
    + destruct (is_space ch); [|apply IH]. rewrite in_app_iff. intros [H|H]; [|apply (IH _ H)].
      destruct cur; cbn [flush In] in H; [tauto|]. destruct H as [H|[]]. discriminate.
  - eexists. split; [vm_compute; reflexivity|]. split; vm_compute; reflexivity.
Qed.

Print Assumptions C108_returns.
Print Assumptions C108_table.
Print Assumptions C108_identifiers.
Print Assumptions C108_default_special.
Print Assumptions C108_range.
Print Assumptions C108_fit_texts_only.
Print Assumptions C108_row_by_row.
Print Assumptions C108_special_words_refuted.
Print Assumptions C108_same_special_refuted.
Print Assumptions C109_table.
Print Assumptions C109_same_word.
Print Assumptions C109_collisions.
Print Assumptions C109_small_vocabulary_refuted.
