(* C162: the stub encoder.  C163: the embeddings.auto step. *)
From Coq Require Import String Ascii QArith Lia ZifyBool ZifyNat.
From Verif Require Import Prelude ListFacts BundleProofs OmlModel OmlSpec OmlProofs TaudModel TaudSpec TaudProofs AutoModel AutoSpec AutoProofs.
Local Open Scope string_scope.
Local Open Scope Z_scope.
Local Open Scope list_scope.
Local Notation length := List.length.

(* One row per sample, in their order, each of dim numbers; a row depends only on its sample and its position. *)
Theorem C162_rows draw dim l : (forall t, length (draw t dim) = dim) ->
  length (stub_encode draw dim l) = length l /\ (forall r, In r (stub_encode draw dim l) -> length r = dim) /\
  (forall l' i s, nth_error l i = Some s -> nth_error l' i = Some s -> nth_error (stub_encode draw dim l) i = nth_error (stub_encode draw dim l') i).
Proof.
  intros Hd; split; [apply encode_length|split].
  - intros r Hr; apply In_nth_error in Hr; destruct Hr as (k & Hk); unfold stub_encode in Hk; rewrite encode_nth in Hk; destruct (nth_error l k); [injection Hk as <-; apply Hd|discriminate].
  - intros l' i s E E'; unfold stub_encode; rewrite !encode_nth, E, E'; reflexivity.
Qed.
(* With a generator that tells all seeds apart, two rows are equal exactly when the encoder sees the same of both samples at the same position. *)
Theorem C162_seen draw dim l l' i j s s' t t' : (forall a b, draw a dim = draw b dim -> a = b) ->
  nth_error l i = Some s -> nth_error l' j = Some s' -> seen s t -> seen s' t' ->
  (nth_error (stub_encode draw dim l) i = nth_error (stub_encode draw dim l') j <-> i = j /\ t = t').
Proof.
  intros Hd E E' Ht Ht'; apply seen_fun in Ht, Ht'; subst; unfold stub_encode; rewrite !encode_nth, E, E'; cbn [Nat.add]; split; [intros H|intros (-> & ->); reflexivity].
  injection H as H; apply Hd in H; apply bar_split in H; [|apply uint_no_bar|apply uint_no_bar]; destruct H as (H & D); split; [exact (decimal_inj _ _ D)|exact H].
Qed.
(* Finding: the same sample at two positions gets two embeddings; in particular the order of a data set changes the embeddings of its samples. *)
Theorem C162_position_refuted draw dim l i j s : (forall a b, draw a dim = draw b dim -> a = b) ->
  nth_error l i = Some s -> nth_error l j = Some s -> i <> j -> nth_error (stub_encode draw dim l) i <> nth_error (stub_encode draw dim l) j.
Proof. intros Hd E E' N H; apply (C162_seen draw dim l l i j s s _ _ Hd E E' (seen_bytes s) (seen_bytes s)) in H; destruct H as (H & _); exact (N H). Qed.
(* Finding: arrays that agree in shape, type and their first 1024 bytes get the same embedding, whatever follows. *)
Theorem C162_head_refuted draw dim shape dt front a b l l' : length front = 1024%nat ->
  stub_encode draw dim (l ++ SArr shape dt (front ++ a) :: l') = stub_encode draw dim (l ++ SArr shape dt (front ++ b) :: l').
Proof.
  intros L; unfold stub_encode; generalize 0%nat; induction l as [|s l IH]; intros k; cbn [app encode_from]; [|now rewrite IH].
  do 3 f_equal; unfold sample_bytes; do 4 f_equal; rewrite <- L, !firstn_app, !Nat.sub_diag, !firstn_all; reflexivity.
Qed.

Section Step.
Context {V Enc R : Type}.
Variable show_bytes : text -> text.
Variable as_float : dtype -> V -> result Q.
Variable load : list kind -> kind -> result Enc.
Variable encode : Enc -> input V -> Z -> R -> result table * R.
Hypothesis Hq : quoted show_bytes.
Notation transform := (transform V show_bytes as_float Enc R load encode).
Notation run := (run V show_bytes as_float Enc R load encode).
Notation step := (step Enc).

(* Every data set goes one way; text, pictures and audio get the result of the encoder of that kind, which is loaded when it has not been. *)
Theorem C163_choice batch (st : step) X r : sound X ->
  (exists o, forall o', goes X o' <-> o' = o) /\
  (forall k e, goes X (Some k) -> st_enc Enc st k = Some e -> transform batch st (Some X) r = (fst (encode e X batch r), snd (encode e X batch r), st)) /\
  (forall k e, goes X (Some k) -> st_enc Enc st k = None -> load (st_loads Enc st) k = Ok e ->
    exists st', transform batch st (Some X) r = (fst (encode e X batch r), snd (encode e X batch r), st') /\ st_enc Enc st' k = Some e) /\
  (forall k x, goes X (Some k) -> st_enc Enc st k = None -> load (st_loads Enc st) k = Err x ->
    exists st', transform batch st (Some X) r = (Err x, r, st') /\ forall k', st_enc Enc st' k' = st_enc Enc st k').
Proof.
  intros So; destruct (choose_spec show_bytes Hq X So) as (o & Ec & Ho); split; [exists o; exact Ho|]; unfold AutoModel.transform; rewrite Ec; split; [|split].
  - intros k e Hg He; apply Ho in Hg; subst o; unfold get_encoder; rewrite He; destruct (encode e X batch r); reflexivity.
  - intros k e Hg He Hl; apply Ho in Hg; subst o; unfold get_encoder; rewrite He, Hl; destruct (encode e X batch r); eexists; split; [reflexivity|]; cbn; destruct k; reflexivity.
  - intros k x Hg He Hl; apply Ho in Hg; subst o; unfold get_encoder; rewrite He, Hl; eexists; split; [reflexivity|]; reflexivity.
Qed.

(* Other data become a table of numbers, one row per element of the first dimension, without an encoder and without drawing.  It fails
   exactly for what is no array, for a single number, for objects, for values that are no numbers, and for no elements of two dimensions or more. *)
Theorem C163_numbers batch (st : step) X r : sound X -> goes X None ->
  (forall t, transform batch st (Some X) r = (Ok t, r, st) <-> exists a, becomes X a /\ flattened as_float a t /\ a_kind V a <> DObject /\ ((3 <= length (a_shape V a))%nat -> t_rows t <> 0%nat)) /\
  snd (fst (transform batch st (Some X) r)) = r /\ snd (transform batch st (Some X) r) = st.
Proof.
  intros So Hg; destruct (choose_spec show_bytes Hq X So) as (o & Ec & Ho); apply Ho in Hg; subst o; unfold AutoModel.transform; rewrite Ec; split; [|split; reflexivity].
  intros t; assert (P : (numeric V as_float X, r, st) = (Ok t, r, st) <-> numeric V as_float X = Ok t) by (split; [intros E; congruence|intros ->; reflexivity]); rewrite P; clear P.
  unfold numeric; split.
  - intros H; apply bind_ok in H; destruct H as (a & Ea & H); apply bind_ok in H; destruct H as ((n, m) & Es & H); exists a; split; [apply becomes_spec; exact Ea|].
    assert (K : exists v, cast V as_float (a_kind V a) (a_vals V a) = Ok v /\ t = {| t_rows := n; t_cols := m; t_vals := v |} /\ a_kind V a <> DObject).
    { destruct (a_kind V a); try discriminate; apply bind_ok in H; destruct H as (v & Ev & [= <-]); exists v; (split; [exact Ev|split; [reflexivity|discriminate]]). }
    destruct K as (v & Ev & -> & Nk); apply cast_spec in Ev; unfold flattened; cbn [t_rows t_cols t_vals].
    destruct (a_shape V a) as [|n0 [|m0 [|k0 rest]]] eqn:Es0; [discriminate| | |].
    + injection Es as <- <-; split; [exists n0, []; repeat split; exact Ev|split; [exact Nk|cbn; lia]].
    + injection Es as <- <-; split; [exists n0, [m0]; repeat split; [cbn; lia|exact Ev]|split; [exact Nk|cbn; lia]].
    + destruct (Nat.eqb_spec n0 0); [discriminate|]; injection Es as <- <-; split; [exists n0, (m0 :: k0 :: rest); repeat split; exact Ev|split; [exact Nk|intros _; assumption]].
  - intros (a & Ha & (n & rest & Es & En & Em & Hv) & Nk & N0); apply becomes_spec in Ha; rewrite Ha; cbn [bind]; rewrite Es in *; apply cast_spec in Hv.
    assert (S' : match n :: rest with [] => Err PreprocessError | [n] => Ok (n, 1%nat) | [n; m] => Ok (n, m) | n :: r => if Nat.eqb n 0 then Err ValueError else Ok (n, fold_right Nat.mul 1%nat r) end = Ok (n, t_cols t)).
    { rewrite Em; destruct rest as [|m [|k rest]]; [reflexivity|cbn; do 2 f_equal; lia|]; destruct (Nat.eqb_spec n 0); [cbn [length] in N0; exfalso; apply N0; [lia|congruence]|reflexivity]. }
    rewrite S'; cbn [bind fst snd]; destruct t as [tr tc tv]; cbn in *; subst; destruct (a_kind V a); try (rewrite Hv; reflexivity); destruct (Nk eq_refl).
Qed.

Lemma transform_loads batch (st : step) X r : forall P : step -> Prop, P st ->
  (forall k, st_enc Enc st k = None -> (exists X', X = Some X' /\ (sound X' -> goes X' (Some k))) -> P (snd (get_encoder Enc load st k))) -> P (snd (transform batch st X r)).
Proof.
  intros P H0 H1; destruct X as [X|]; [|exact H0]; unfold AutoModel.transform; destruct (choose V show_bytes X) as [[k|]|x] eqn:Ec; [|exact H0|exact H0].
  destruct (st_enc Enc st k) as [e|] eqn:Ee.
  - unfold get_encoder; rewrite Ee; destruct (encode e X batch r); exact H0.
  - assert (G : exists X', Some X = Some X' /\ (sound X' -> goes X' (Some k))) by (exists X; split; [reflexivity|intros So; destruct (choose_spec show_bytes Hq X So) as (o & Ec' & Ho); rewrite Ec in Ec'; injection Ec' as <-; apply Ho; reflexivity]).
    specialize (H1 k Ee G); destruct (get_encoder Enc load st k) as ([e|x], st'); cbn in H1; [destruct (encode e X batch r)|]; exact H1.
Qed.

Definition loaded_by (load : list kind -> kind -> result Enc) (st : step) : Prop :=
  (forall k e, st_enc Enc st k = Some e <-> exists a b, st_loads Enc st = a ++ k :: b /\ load a k = Ok e) /\
  (forall k a b, st_loads Enc st = a ++ k :: b -> In k b -> exists x, load a k = Err x).

Lemma snoc_cut {A} (l a b : list A) x k : l ++ [x] = a ++ k :: b -> (b = [] /\ l = a /\ x = k) \/ exists b', b = b' ++ [x] /\ l = a ++ k :: b'.
Proof.
  destruct b as [|y b _] using rev_ind; intros H.
  - left; apply app_inj_tail in H; destruct H as (-> & ->); repeat split.
  - right; exists b; change (a ++ k :: b ++ [y]) with (a ++ (k :: b) ++ [y]) in H; rewrite app_assoc in H; apply app_inj_tail in H; destruct H as (-> & ->); split; reflexivity.
Qed.
Lemma get_loaded (st : step) k : loaded_by load st -> st_enc Enc st k = None -> loaded_by load (snd (get_encoder Enc load st k)).
Proof.
  intros (H1 & H2) N; unfold get_encoder; rewrite N; assert (NL : forall a b, st_loads Enc st = a ++ k :: b -> exists x, load a k = Err x).
  { intros a b E; destruct (load a k) as [e|x] eqn:El; [|exists x; reflexivity]; assert (T : st_enc Enc st k = Some e) by (apply H1; exists a, b; split; assumption); congruence. }
  assert (KE : forall k', kind_eqb k' k = true <-> k' = k) by (intros k'; destruct k', k; split; intros; (reflexivity || discriminate)).
  destruct (load (st_loads Enc st) k) as [e|x] eqn:El; cbn [snd]; split; cbn [st_enc st_loads].
  - intros k' e'; destruct (kind_eqb k' k) eqn:Ek.
    + apply KE in Ek; subst k'; split.
      * intros [= <-]; exists (st_loads Enc st), []; split; [reflexivity|exact El].
      * intros (a & b & E & L); apply snoc_cut in E; destruct E as [(-> & <- & _)|(b' & -> & E)]; [congruence|destruct (NL a b' E) as (x & Ex); congruence].
    + rewrite H1; split; intros (a & b & E & L).
      * exists a, (b ++ [k]); split; [rewrite E, <- app_assoc; reflexivity|exact L].
      * apply snoc_cut in E; destruct E as [(_ & _ & ->)|(b' & -> & E)]; [assert (T : kind_eqb k' k' = true) by (apply KE; reflexivity); congruence|exists a, b'; split; assumption].
  - intros k' a b E I; apply snoc_cut in E; destruct E as [(-> & _ & _)|(b' & -> & E)]; [destruct I|]; apply in_app_or in I; destruct I as [I|[<-|[]]]; [exact (H2 k' a b' E I)|exact (NL a b' E)].
  - intros k' e'; rewrite H1; split; intros (a & b & E & L).
    + exists a, (b ++ [k]); split; [rewrite E, <- app_assoc; reflexivity|exact L].
    + apply snoc_cut in E; destruct E as [(-> & <- & <-)|(b' & -> & E)]; [congruence|exists a, b'; split; assumption].
  - intros k' a b E I; apply snoc_cut in E; destruct E as [(-> & _ & _)|(b' & -> & E)]; [destruct I|]; apply in_app_or in I; destruct I as [I|[<-|[]]]; [exact (H2 k' a b' E I)|exact (NL a b' E)].
Qed.

(* Over any number of uses of a step, an encoder is loaded again only when loading it failed, the encoder kept is the one that was loaded, and
   only the encoders some data set went to are loaded. *)
Theorem C163_loads batch Xs r : let st := snd (run batch (fresh Enc) Xs r) in
  (forall k a b, st_loads Enc st = a ++ k :: b -> In k b -> exists x, load a k = Err x) /\
  (forall k e, st_enc Enc st k = Some e <-> exists a b, st_loads Enc st = a ++ k :: b /\ load a k = Ok e) /\
  (forall k, In k (st_loads Enc st) -> exists X, In (Some X) Xs /\ (sound X -> goes X (Some k))).
Proof.
  assert (H : forall st0 r, loaded_by load st0 -> let st := snd (run batch st0 Xs r) in loaded_by load st /\ (forall k, In k (st_loads Enc st) -> In k (st_loads Enc st0) \/ exists X, In (Some X) Xs /\ (sound X -> goes X (Some k)))).
  { induction Xs as [|X Xs IH]; intros st0 r0 L; [split; [exact L|intros k I; left; exact I]|]; cbn [AutoModel.run].
    pose proof (transform_loads batch st0 X r0 (fun st1 => loaded_by load st1 /\ (forall k, In k (st_loads Enc st1) -> In k (st_loads Enc st0) \/ exists X', X = Some X' /\ (sound X' -> goes X' (Some k))))) as T.
    destruct (transform batch st0 X r0) as ((t, r1), st1); cbn [snd] in T; destruct T as (L1 & I1).
    - split; [exact L|intros k I; left; exact I].
    - intros k N G; split; [apply get_loaded; assumption|]; intros k' I; unfold get_encoder in I; rewrite N in I; assert (I' : In k' (st_loads Enc st0 ++ [k])) by (destruct (load (st_loads Enc st0) k); exact I); apply in_app_or in I'; destruct I' as [I'|[<-|[]]]; [left; exact I'|right; exact G].
    - specialize (IH st1 r1 L1); destruct (run batch st1 Xs r1) as ((ts, r2), st2); cbn [snd] in *; destruct IH as (L2 & I2); split; [exact L2|]; intros k I; destruct (I2 k I) as [I'|(X' & HX & G)]; [|right; exists X'; split; [right; exact HX|exact G]].
      destruct (I1 k I') as [I''|(X' & -> & G)]; [left; exact I''|right; exists X'; split; [left; reflexivity|exact G]]. }
  destruct (H (fresh Enc) r) as ((L1 & L2) & I); [split; [intros k e; split; [discriminate|intros (a & b & E & _); destruct a; discriminate]|intros k a b E; destruct a; discriminate]|].
  split; [exact L2|split; [exact L1|]]; intros k Ik; destruct (I k Ik) as [[]|G]; exact G.
Qed.

(* Finding: rows of numbers given as lists go to the audio encoder; the same numbers in an array are taken as numbers. *)
Theorem C163_rows_refuted l conv a : length (a_shape V a) = 2%nat -> a_kind V a = DNumber -> (forall i, In i (a_items V a) -> i = IOther) ->
  goes (InSeq V (ISeq (Ok 1%nat) :: l) conv) (Some KAudio) /\ goes (InArr V a) None.
Proof.
  intros L K I; split.
  - apply goes_audio; [intros [(s & (r' & [=]) & _)|(a' & b & [=] & _)]|intros (a' & [=] & _)|right; left; exists l; reflexivity].
  - assert (F : forall i, first (InArr V a) i -> i = IOther) by (intros i (r' & E); apply I; rewrite E; left; reflexivity).
    apply goes_numbers; [intros [(s & H & _)|(a' & b & [= <-] & K' & _)]; [discriminate (F _ H)|congruence]|intros (a' & [= <-] & [H|H]); congruence|].
    intros [(s & [H|H] & _)|[H|H]]; discriminate (F _ H).
Qed.
(* Finding: the first sample decides.  The same texts go to the audio encoder or to the text encoder, depending on which comes first. *)
Theorem C163_first_refuted (conv conv' : result (array V)) a b l : audio_name a -> ~ audio_name b ->
  goes (InSeq V (IText a :: IText b :: l) conv) (Some KAudio) /\ goes (InSeq V (IText b :: IText a :: l) conv') (Some KText).
Proof.
  intros A B; split.
  - apply goes_audio; [intros [(s & (r' & E) & N)|(a' & b' & [=] & _)]; injection E as <- _; exact (N A)|intros (a' & [=] & _)|left; exists a; split; [left; eexists; reflexivity|exact A]].
  - apply goes_text; left; exists b; split; [eexists; reflexivity|exact B].
Qed.
(* Finding: no samples become a table without rows but with one column, whatever the width of the embeddings. *)
Theorem C163_empty_refuted batch (st : step) conv r : transform batch st (Some (InSeq V [] conv)) r = (Ok {| t_rows := 0; t_cols := 1; t_vals := [] |}, r, st).
Proof. reflexivity. Qed.
(* Finding: a tensor is never taken as pictures: the array with the same values is, but the tensor becomes a table of numbers. *)
Theorem C163_tensor_refuted a : length (a_shape V a) = 4%nat -> a_kind V a = DNumber -> sound (InArr V a) -> goes (InArr V a) (Some KVision) /\ goes (InElse V (Ok a)) None.
Proof.
  intros L K (So & _); split.
  - apply goes_vision; [|exists a; split; [reflexivity|right; exact L]]; intros [(s & (r' & E) & _)|(a' & b & [= <-] & K' & _)]; [|congruence]; pose proof (So a (IText s) eq_refl ltac:(rewrite E; left; reflexivity)) as T; rewrite K in T; discriminate.
  - apply goes_numbers; [intros [(s & [] & _)|(a' & b & [=] & _)]|intros (a' & [=] & _)|intros [(s & [[]|[]] & _)|[[]|[]]]].
Qed.
End Step.

(* ---- examples *)
Fixpoint num (t : text) : Z := match t with [] => 0 | c :: r => Z.of_nat (nat_of_ascii c) + 1 + 257 * num r end.
Lemma num_nonneg t : 0 <= num t. Proof. induction t as [|c t IH]; cbn [num]; lia. Qed.
Lemma num_inj a : forall b, num a = num b -> a = b.
Proof.
  induction a as [|c a IH]; intros [|d b] H; cbn [num] in H; [reflexivity|pose proof (num_nonneg b); lia|pose proof (num_nonneg a); lia|].
  pose proof (nat_ascii_bounded c); pose proof (nat_ascii_bounded d); assert (E1 : num a = num b) by lia; assert (E2 : nat_of_ascii c = nat_of_ascii d) by lia.
  f_equal; [rewrite <- (ascii_nat_embedding c), <- (ascii_nat_embedding d); now f_equal|exact (IH b E1)].
Qed.
Definition ax_draw (t : text) (dim : nat) : list Q := repeat (inject_Z (num t)) dim.
Example C162_hypotheses : (forall t, length (ax_draw t 8) = 8%nat) /\ (forall a b, ax_draw a 8 = ax_draw b 8 -> a = b).
Proof. split; [intros t; apply repeat_length|intros a b [= H _ _ _ _ _ _ _]; exact (num_inj _ _ H)]. Qed.
Example C162_ex : nth_error (stub_encode ax_draw 8 [SStr (txt "a"); SStr (txt "a")]) 0 <> nth_error (stub_encode ax_draw 8 [SStr (txt "a"); SStr (txt "a")]) 1.
Proof. apply (C162_position_refuted ax_draw 8 _ 0 1 (SStr (txt "a"))); [apply C162_hypotheses|reflexivity|reflexivity|discriminate]. Qed.
Definition ax_show (b : text) : text := txt "b'" ++ b ++ txt "'".
Example ax_quoted : quoted ax_show.
Proof. intros b; exists (txt "b'" ++ b), "'"%char; split; [unfold ax_show; now rewrite <- app_assoc|left; reflexivity]. Qed.
Example ax_audio : audio_name (txt "data/x/Take.1.WaV/").
Proof. apply named_spec; reflexivity. Qed.
Example ax_not_audio : ~ audio_name (txt "a long wav.") /\ ~ audio_name (txt ".mp3") /\ audio_name (txt "listen to song.mp3").
Proof. repeat split; [intros H; apply named_spec in H; discriminate|intros H; apply named_spec in H; discriminate|apply named_spec; reflexivity]. Qed.
Definition ax_load (l : list kind) (k : kind) : result kind := match l with [] => Err OptionalDependencyError | _ => Ok k end.
Definition ax_enc (e : kind) (X : input Q) (b : Z) (r : Z) : result table * Z := (Ok {| t_rows := 1; t_cols := 8; t_vals := [] |}, r + 1).
Definition ax_texts : input Q := InSeq Q [IText (txt "good"); IText (txt "bad.wav")] (Err ValueError).
Example ax_sound : sound ax_texts. Proof. split; [intros a i [=]|intros x (r & [=])]. Qed.
Example ax_goes : goes ax_texts (Some KText).
Proof. apply goes_text; left; exists (txt "good"); split; [eexists; reflexivity|intros H; apply named_spec in H; discriminate]. Qed.
(* the first use fails to load, the second loads, the third keeps *)
Example ax_loads : st_loads kind (snd (run Q ax_show (fun _ q => Ok q) kind Z ax_load ax_enc 32 (fresh kind) [Some ax_texts; Some ax_texts; Some ax_texts] 0)) = [KText; KText].
Proof. reflexivity. Qed.
Example ax_numbers : let a := {| a_shape := [2; 2]%nat; a_kind := DNumber; a_items := [IOther; IOther; IOther; IOther]; a_vals := [1; 2; 3; 4]%Q |} in
  sound (InArr Q a) /\ goes (InArr Q a) None /\ flattened (fun _ q => Ok q) a {| t_rows := 2; t_cols := 2; t_vals := [1; 2; 3; 4]%Q |}.
Proof.
  cbv zeta; split; [split; [intros a i [= <-] H; cbn in *; intuition|intros x (r & [=])]|split; [|exists 2%nat, [2%nat]; repeat split; repeat (apply Forall2_cons; [reflexivity|]); constructor]].
  refine (proj2 (C163_rows_refuted [] (Err ValueError) _ _ _ _)); [reflexivity|reflexivity|intros i H; cbn in H; intuition].
Qed.

Print Assumptions C162_rows.
Print Assumptions C162_seen.
Print Assumptions C162_position_refuted.
Print Assumptions C162_head_refuted.
Print Assumptions C163_choice.
Print Assumptions C163_numbers.
Print Assumptions C163_loads.
Print Assumptions C163_rows_refuted.
Print Assumptions C163_first_refuted.
Print Assumptions C163_empty_refuted.
Print Assumptions C163_tensor_refuted.
