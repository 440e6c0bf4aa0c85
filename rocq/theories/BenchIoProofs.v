From Coq Require Import String Ascii ZifyBool ZifyNat.
From Verif Require Import Prelude ListFacts FloatModel PyValue DecString SampleServiceProofs HpoModel HpoSpec HpoProofs LimitsModel LimitsSpec BenchIoModel BenchIoSpec.
Local Open Scope string_scope.
Local Open Scope Z_scope.
Local Open Scope list_scope.
Local Notation length := List.length.

(* ------------------------------------------------------------------ characters *)
Lemma name_start_existsb c : name_start c = existsb (Ascii.eqb c) letters.
Proof. destruct c as [[] [] [] [] [] [] [] []]; vm_compute; reflexivity. Qed.
Lemma is_num_existsb c : is_num c = existsb (Ascii.eqb c) digits.
Proof. destruct c as [[] [] [] [] [] [] [] []]; vm_compute; reflexivity. Qed.
Lemma existsb_char c l : existsb (Ascii.eqb c) l = true <-> In c l.
Proof.
  rewrite existsb_exists. split.
  - intros (x & H & E). apply Ascii.eqb_eq in E. subst. exact H.
  - intros H. exists c. split; [exact H|apply Ascii.eqb_refl].
Qed.
Lemma name_start_iff c : name_start c = true <-> In c letters.
Proof. rewrite name_start_existsb. apply existsb_char. Qed.
Lemma is_num_iff c : is_num c = true <-> In c digits.
Proof. rewrite is_num_existsb. apply existsb_char. Qed.
Lemma name_char_iff c : name_char c = true <-> In c letters \/ In c digits.
Proof. unfold name_char. rewrite orb_true_iff, name_start_iff, is_num_iff. reflexivity. Qed.
Lemma name_char_plain c : name_char c = true -> c <> "$"%char /\ c <> "\"%char /\ c <> "{"%char /\ c <> "}"%char.
Proof. intros H. repeat split; intros ->; discriminate. Qed.

Lemma span_spec s : forall a b, span_name s = (a, b) ->
  s = a ++ b /\ Forall (fun c => name_char c = true) a /\ forall c r, b = c :: r -> name_char c = false.
Proof.
  induction s as [|c s IH]; intros a b E; cbn in E.
  - injection E as <- <-. repeat split; [constructor|discriminate].
  - destruct (name_char c) eqn:Hc.
    + destruct (span_name s) as [a' b'] eqn:E'. injection E as <- <-. destruct (IH _ _ eq_refl) as (-> & F & H).
      repeat split; [constructor; assumption|exact H].
    + injection E as <- <-. split; [reflexivity|]. split; [constructor|]. intros x r [= <- <-]. exact Hc.
Qed.
Lemma span_app a b : Forall (fun c => name_char c = true) a -> (forall c r, b = c :: r -> name_char c = false) -> span_name (a ++ b) = (a, b).
Proof.
  induction 1 as [|c a Hc F IH]; intros H; cbn.
  - destruct b as [|c r]; [reflexivity|]. cbn. rewrite (H c r eq_refl). reflexivity.
  - rewrite Hc, (IH H). reflexivity.
Qed.

Lemma variable_name_iff n : variable_name n <-> exists c r, n = c :: r /\ name_start c = true /\ Forall (fun c => name_char c = true) n.
Proof.
  split.
  - intros (c & r & -> & Hc & Hr). exists c, r. split; [reflexivity|]. split; [apply name_start_iff, Hc|].
    constructor; [apply name_char_iff; left; exact Hc|]. apply Forall_forall. intros x Hx. apply name_char_iff, Hr, Hx.
  - intros (c & r & -> & Hc & F). inversion_clear F as [|? ? Fc Fr]. exists c, r. split; [reflexivity|]. split; [apply name_start_iff, Hc|].
    intros x Hx. apply name_char_iff. revert x Hx. apply Forall_forall, Fr.
Qed.
Lemma name_start_char c : name_start c = true -> name_char c = true.
Proof. unfold name_char. intros ->. reflexivity. Qed.

(* the written form after its dollar *)
Definition tail_written (b : bool) (n : text) : text := if b then ("{" :: n ++ ["}"])%char else n.
Lemma written_tail b n : written b n = "$"%char :: tail_written b n.
Proof. destruct b; reflexivity. Qed.
Definition ends_well (b : bool) (after : text) : Prop := b = false -> forall c r, after = c :: r -> name_char c = false.
Lemma ends_well_iff (b : bool) (after : text) : ends_well b after <-> (b = false -> forall c r, after = c :: r -> ~ In c letters /\ ~ In c digits).
Proof.
  unfold ends_well. split; intros H Hb c r E; specialize (H Hb c r E).
  - split; intros Hi; assert (name_char c = true) by (apply name_char_iff; tauto); congruence.
  - destruct (name_char c) eqn:E'; [|reflexivity]. apply name_char_iff in E'. tauto.
Qed.

Lemma match_name_sound s b n rest : match_name s = Some (b, n, rest) ->
  s = tail_written b n ++ rest /\ variable_name n /\ ends_well b rest.
Proof.
  destruct s as [|c r]; [discriminate|]. cbn [match_name]. destruct (Ascii.eqb_spec c "{") as [->|Hc].
  - destruct r as [|c' r']; [discriminate|]. destruct (name_start c') eqn:Hs; [|discriminate].
    destruct (span_name (c' :: r')) as [m rest0] eqn:Es. destruct rest0 as [|e rest1]; [discriminate|].
    destruct (Ascii.eqb_spec e "}") as [->|]; [|discriminate]. intros [= <- <- <-].
    destruct (span_spec _ _ _ Es) as (E & F & H). split; [cbn; rewrite E, <- app_assoc; reflexivity|]. split; [|discriminate].
    apply variable_name_iff. cbn in Es. rewrite (name_start_char _ Hs) in Es. destruct (span_name r') as [m' ?].
    injection Es as <- _. exists c', m'. auto.
  - destruct (name_start c) eqn:Hs; [|discriminate]. destruct (span_name (c :: r)) as [m rest0] eqn:Es. intros [= <- <- <-].
    destruct (span_spec _ _ _ Es) as (E & F & H). split; [exact E|]. split; [|intros _; exact H].
    apply variable_name_iff. cbn in Es. rewrite (name_start_char _ Hs) in Es. destruct (span_name r) as [m' ?].
    injection Es as <- _. exists c, m'. auto.
Qed.
Lemma match_name_complete b n rest : variable_name n -> ends_well b rest -> match_name (tail_written b n ++ rest) = Some (b, n, rest).
Proof.
  intros V W. apply variable_name_iff in V. destruct V as (c & r & -> & Hc & F). destruct b; cbn [tail_written].
  - change (("{"%char :: (c :: r) ++ ["}"%char]) ++ rest) with ("{"%char :: ((c :: r) ++ ["}"%char]) ++ rest).
    rewrite <- app_assoc. unfold match_name. rewrite Ascii.eqb_refl. change ((c :: r) ++ ["}"%char] ++ rest) with (c :: (r ++ "}"%char :: rest)) at 1.
    cbv beta iota. rewrite Hc. rewrite span_app; [|exact F|intros x y [= <- <-]; reflexivity]. cbn. reflexivity.
  - unfold match_name. change ((c :: r) ++ rest) with (c :: (r ++ rest)) at 1. cbv beta iota.
    assert (Hb : Ascii.eqb c "{" = false).
    { apply Ascii.eqb_neq. apply (name_char_plain c (name_start_char _ Hc)). }
    rewrite Hb, Hc. rewrite span_app; [reflexivity|exact F|]. apply W. reflexivity.
Qed.

Lemma tail_written_no_dollar b n : variable_name n -> ~ In "$"%char (tail_written b n).
Proof.
  intros V. apply variable_name_iff in V. destruct V as (c & r & -> & _ & F). rewrite Forall_forall in F.
  assert (N : ~ In "$"%char (c :: r)) by (intros H; apply F in H; discriminate).
  destruct b; cbn [tail_written]; [|exact N]. intros [E|H]; [discriminate|].
  apply in_app_or in H. destruct H as [H|[E|[]]]; [apply N, H|discriminate].
Qed.

(* ------------------------------------------------------------------ the scan *)
Definition last_escapes (t : text) : Prop := last_is t "$" \/ last_is t "\".
Lemma last_is_snoc t c x : last_is (t ++ [c]) x <-> c = x.
Proof.
  split.
  - intros (a & E). apply app_inj_tail in E. apply E.
  - intros ->. exists t. reflexivity.
Qed.
Lemma escapes_iff t c : escapes c = true <-> last_escapes (t ++ [c]).
Proof.
  unfold escapes, last_escapes. rewrite orb_true_iff, !Ascii.eqb_eq, !last_is_snoc. reflexivity.
Qed.
Lemma last_nil c : ~ last_is [] c.
Proof. intros ([|] & E); discriminate. Qed.
Lemma written_last b n t : variable_name n -> ~ last_escapes (t ++ written b n).
Proof.
  intros V. assert (exists m c, written b n = m ++ [c] /\ escapes c = false) as (m & c & E & H).
  { destruct b; cbn [written].
    - exists ("$" :: "{" :: n)%char, "}"%char. auto.
    - apply variable_name_iff in V. destruct V as (x & r & E & _ & F).
      destruct (exists_last (l := n)) as (n' & c & En); [rewrite E; discriminate|]. subst n. rewrite En in *.
      exists ("$"%char :: n'), c. split; [reflexivity|]. apply Forall_app in F. destruct F as [_ F]. inversion_clear F as [|? ? Hc _].
      unfold escapes. destruct (name_char_plain c Hc) as (A & B & _). apply orb_false_iff. split; apply Ascii.eqb_neq; assumption. }
  rewrite E, app_assoc. intros L. apply (proj2 (escapes_iff _ _)) in L. congruence.
Qed.

Lemma placeholder_iff s before b n : placeholder_after s before b n <->
  exists after, s = before ++ "$"%char :: tail_written b n ++ after /\ variable_name n /\ ~ last_escapes before /\ ends_well b after.
Proof.
  unfold placeholder_after, last_escapes. split.
  - intros (a & E & V & D & S' & W). exists a. rewrite written_tail in E. split; [exact E|]. split; [exact V|]. split; [tauto|].
    apply ends_well_iff, W.
  - intros (a & E & V & D & W). exists a. rewrite written_tail. split; [exact E|]. split; [exact V|]. split; [tauto|]. split; [tauto|].
    apply ends_well_iff, W.
Qed.

Definition piece_of (t : token) : piece := match t with Lit c => Plain [c] | Var b n => Placeholder b n end.

Lemma app_split {A} (a b c d : list A) : a ++ b = c ++ d -> (length a <= length c)%nat -> exists m, c = a ++ m /\ b = m ++ d.
Proof.
  revert c. induction a as [|x a IH]; intros c E L; cbn in *.
  - exists c. split; [reflexivity|exact E].
  - destruct c as [|y c]; cbn in *; [lia|]. injection E as -> E. destruct (IH c E) as (m & -> & ->); [lia|]. exists m. auto.
Qed.

Definition split_at (ps : list piece) (before : text) (b : bool) (n : text) : Prop :=
  exists front back, ps = front ++ Placeholder b n :: back /\ before = joined front.

Lemma split_cons p ps before b n : split_at (p :: ps) before b n <->
  (before = [] /\ p = Placeholder b n) \/ (exists r, before = piece_text p ++ r /\ split_at ps r b n).
Proof.
  split.
  - intros ([|q front] & back & E & J).
    + injection E as -> _. left. split; [exact J|reflexivity].
    + injection E as <- E. right. exists (joined front). split; [exact J|]. exists front, back. auto.
  - intros [[-> ->]|(r & -> & front & back & -> & ->)].
    + exists [], ps. auto.
    + exists (p :: front), back. auto.
Qed.

Lemma scan_spec fuel : forall s pre blocked, (length s <= fuel)%nat -> (blocked = true <-> last_escapes pre) ->
  joined (map piece_of (tokens fuel blocked s)) = s /\
  forall r b n, placeholder_after (pre ++ s) (pre ++ r) b n <-> split_at (map piece_of (tokens fuel blocked s)) r b n.
Proof.
  induction fuel as [|fuel IH]; intros s pre blocked L Hb.
  - destruct s; cbn in L; [|lia]. split; [reflexivity|]. intros r b n. rewrite placeholder_iff. split.
    + intros (a & E & _). apply (f_equal (@length _)) in E. rewrite !app_length in E. cbn in E. lia.
    + intros ([|] & ? & E & _); discriminate.
  - destruct s as [|c s].
    { split; [reflexivity|]. intros r b n. rewrite placeholder_iff. split.
      + intros (a & E & _). apply (f_equal (@length _)) in E. rewrite !app_length in E. cbn in E. lia.
      + intros ([|] & ? & E & _); discriminate. }
    cbn in L. cbn [tokens].
    assert (exists o, o = (if Ascii.eqb c "$" && negb blocked then match_name s else None)) as (o & Do) by eauto. rewrite <- Do.
    (* what a placeholder right here means *)
    assert (Here : forall b n, placeholder_after (pre ++ c :: s) pre b n <-> exists rest, o = Some (b, n, rest)).
    { intros b n. rewrite placeholder_iff. split.
      - intros (a & E & V & NL & W). apply app_inv_head in E. injection E as -> ->. exists a. rewrite Do.
        destruct blocked; [exfalso; apply NL, Hb; reflexivity|]. rewrite Ascii.eqb_refl. cbn. apply match_name_complete; assumption.
      - intros (rest & E). rewrite E in Do. destruct (Ascii.eqb_spec c "$") as [->|]; [|discriminate].
        destruct blocked; [discriminate|]. cbn in Do. symmetry in Do. destruct (match_name_sound _ _ _ _ Do) as (-> & V & W).
        exists rest. split; [reflexivity|]. split; [exact V|]. split; [|exact W]. intros X. apply Hb in X. discriminate. }
    destruct o as [[[b0 n0] rest]|].
    + destruct (Ascii.eqb_spec c "$") as [->|]; [|discriminate]. destruct blocked; [discriminate|]. cbn in Do. symmetry in Do.
      destruct (match_name_sound _ _ _ _ Do) as (-> & V & W).
      destruct (IH rest (pre ++ written b0 n0) false) as (J & P).
      { rewrite app_length in L. lia. }
      { split; [discriminate|]. intros X. exfalso. apply (written_last b0 n0 pre V X). }
      cbn [map piece_of]. split.
      { change (joined (Placeholder b0 n0 :: map piece_of (tokens fuel false rest))) with (written b0 n0 ++ joined (map piece_of (tokens fuel false rest))).
        rewrite J, written_tail. reflexivity. }
      intros r b n. rewrite split_cons. cbn [piece_text].
      assert (Es : pre ++ "$"%char :: tail_written b0 n0 ++ rest = (pre ++ written b0 n0) ++ rest) by (rewrite written_tail, <- app_assoc; reflexivity).
      split.
      * intros Pl. destruct r as [|x r].
        { left. split; [reflexivity|]. rewrite app_nil_r in Pl. apply Here in Pl. destruct Pl as (? & [= -> -> _]). reflexivity. }
        right. pose proof Pl as Pl'. apply placeholder_iff in Pl'. destruct Pl' as (a & E & V' & NL & W').
        rewrite <- app_assoc in E. apply app_inv_head in E. cbn in E. injection E as <- E.
        destruct (Nat.le_gt_cases (length (tail_written b0 n0)) (length r)) as [Ln|Ln].
        -- destruct (app_split _ _ _ _ E Ln) as (m & -> & Er). exists m. split; [rewrite written_tail; reflexivity|].
           apply P. rewrite <- Es.
           replace ((pre ++ written b0 n0) ++ m) with (pre ++ "$"%char :: tail_written b0 n0 ++ m) by (rewrite written_tail, <- app_assoc; reflexivity).
           exact Pl.
        -- exfalso. symmetry in E. destruct (app_split _ _ _ _ E) as (m & Em & Er); [lia|].
           destruct m as [|y m]; [rewrite Em, app_length in Ln; cbn in Ln; lia|]. cbn in Er. injection Er as <- _.
           apply (tail_written_no_dollar b0 n0 V). rewrite Em. apply in_or_app. right. left. reflexivity.
      * intros [[-> E]|(m & -> & Sp)].
        -- injection E as -> ->. rewrite app_nil_r. apply Here. eauto.
        -- apply P in Sp. rewrite Es, app_assoc. exact Sp.
    + destruct (IH s (pre ++ [c]) (escapes c)) as (J & P); [lia|apply escapes_iff|].
      cbn [map piece_of]. split; [change (joined (Plain [c] :: map piece_of (tokens fuel (escapes c) s))) with (c :: joined (map piece_of (tokens fuel (escapes c) s))); rewrite J; reflexivity|].
      intros r b n. rewrite split_cons. cbn [piece_text].
      assert (Es : pre ++ c :: s = (pre ++ [c]) ++ s) by (rewrite <- app_assoc; reflexivity).
      split.
      * intros Pl. destruct r as [|x r].
        { rewrite app_nil_r in Pl. apply Here in Pl. destruct Pl as (? & E). discriminate. }
        right. pose proof Pl as Pl'. apply placeholder_iff in Pl'. destruct Pl' as (a & E & _).
        rewrite <- app_assoc in E. apply app_inv_head in E. cbn in E. injection E as <- E.
        exists r. split; [reflexivity|]. apply P. rewrite <- Es, <- app_assoc. exact Pl.
      * intros [[-> E]|(m & -> & Sp)]; [discriminate|]. apply P in Sp. rewrite Es, app_assoc. exact Sp.
Qed.

Lemma tokens_cut s : cut_of s (map piece_of (tokens (length s) false s)).
Proof.
  destruct (scan_spec (length s) s [] false (le_n _)) as (J & P).
  { split; [discriminate|]. intros [H|H]; exfalso; apply (last_nil _ H). }
  split; [exact J|]. intros before b n. apply (P before b n).
Qed.

(* ------------------------------------------------------------------ a text is cut in one way only *)
Definition atoms (ps : list piece) : list piece :=
  flat_map (fun p => match p with Plain t => map (fun c => Plain [c]) t | q => [q] end) ps.
Definition atomic (ps : list piece) : Prop := Forall (fun p => match p with Plain [_] => True | Plain _ => False | _ => True end) ps.
Lemma atoms_atomic ps : atomic (atoms ps).
Proof.
  unfold atomic. induction ps as [|[t|b n] ps IH]; [apply Forall_nil| |apply Forall_cons; [exact Logic.I|exact IH]].
  cbn [atoms flat_map]. apply Forall_app. split; [|exact IH]. apply Forall_forall. intros x Hx. apply in_map_iff in Hx. destruct Hx as (c & <- & _). exact Logic.I.
Qed.
Lemma joined_app a b : joined (a ++ b) = joined a ++ joined b.
Proof. unfold joined. rewrite map_app, concat_app. reflexivity. Qed.
Lemma joined_chars t : joined (map (fun c => Plain [c]) t) = t.
Proof. induction t as [|c t IH]; [reflexivity|]. unfold joined in *. cbn in *. rewrite IH. reflexivity. Qed.
Lemma joined_atoms ps : joined (atoms ps) = joined ps.
Proof.
  induction ps as [|[t|b n] ps IH]; [reflexivity| |].
  - cbn [atoms flat_map]. rewrite joined_app, joined_chars. change (flat_map _ ps) with (atoms ps). rewrite IH. reflexivity.
  - change (atoms (Placeholder b n :: ps)) with (Placeholder b n :: atoms ps).
    change (written b n ++ joined (atoms ps) = written b n ++ joined ps). rewrite IH. reflexivity.
Qed.
Lemma split_plain t ps r b n : split_at (map (fun c => Plain [c]) t ++ ps) r b n <-> exists m, r = t ++ m /\ split_at ps m b n.
Proof.
  revert r. induction t as [|c t IH]; intros r; cbn [map app].
  - split; [intros H; exists r; auto|intros (m & -> & H); exact H].
  - rewrite split_cons. cbn [piece_text]. split.
    + intros [[_ E]|(m & -> & H)]; [discriminate|]. apply IH in H. destruct H as (m' & -> & H). exists m'. auto.
    + intros (m & -> & H). right. exists (t ++ m). split; [reflexivity|]. apply IH. exists m. auto.
Qed.
Lemma split_atoms ps r b n : split_at (atoms ps) r b n <-> split_at ps r b n.
Proof.
  revert r. induction ps as [|[t|b' n'] ps IH]; intros r; [reflexivity| |].
  - cbn [atoms flat_map]. change (flat_map _ ps) with (atoms ps). rewrite split_plain, split_cons. cbn [piece_text]. split.
    + intros (m & -> & H). right. exists m. split; [reflexivity|apply IH, H].
    + intros [[_ E]|(m & -> & H)]; [discriminate|]. exists m. split; [reflexivity|apply IH, H].
  - cbn [atoms flat_map app]. change (flat_map _ ps) with (atoms ps). rewrite !split_cons. split.
    + intros [H|(m & -> & H)]; [left; exact H|right; exists m; split; [reflexivity|apply IH, H]].
    + intros [H|(m & -> & H)]; [left; exact H|right; exists m; split; [reflexivity|apply IH, H]].
Qed.
Lemma written_nonempty b n : written b n <> [].
Proof. destruct b; discriminate. Qed.

Lemma atomic_unique ps : forall qs, atomic ps -> atomic qs -> joined ps = joined qs ->
  (forall r b n, split_at ps r b n <-> split_at qs r b n) -> ps = qs.
Proof.
  induction ps as [|p ps IH]; intros qs A B J H.
  - destruct qs as [|q qs]; [reflexivity|]. inversion_clear B as [|? ? B1 B2]. unfold joined in J. cbn in J.
    destruct q as [[|c [|]]|b n]; try contradiction; [discriminate|]. cbn in J. rewrite written_tail in J. discriminate.
  - destruct qs as [|q qs].
    { inversion_clear A as [|? ? B1 B2]. unfold joined in J. cbn in J.
      destruct p as [[|c [|]]|b n]; try contradiction; [discriminate|]. cbn in J. rewrite written_tail in J. discriminate. }
    inversion_clear A as [|? ? A1 A2]. inversion_clear B as [|? ? B1 B2].
    assert (NE : forall x, match x with Plain [_] => True | Plain _ => False | Placeholder _ _ => True end -> forall r, [] <> piece_text x ++ r).
    { intros [[|c [|]]|b n] X r; try contradiction; cbn; [discriminate|]. rewrite written_tail. discriminate. }
    assert (PQ : p = q).
    { destruct p as [[|c [|]]|b n]; try contradiction.
      - destruct q as [[|c' [|]]|b' n']; try contradiction.
        + unfold joined in J. cbn in J. injection J as -> _. reflexivity.
        + exfalso. assert (S' : split_at (Plain [c] :: ps) [] b' n') by (apply H, split_cons; left; auto).
          apply split_cons in S'. destruct S' as [[_ E]|(r & E & _)]; [discriminate|]. cbn in E. discriminate.
      - assert (S' : split_at (q :: qs) [] b n) by (apply H, split_cons; left; auto).
        apply split_cons in S'. destruct S' as [[_ E]|(r & E & _)]; [symmetry; exact E|]. exfalso. apply (NE q B1 r E). }
    subst q. f_equal. apply IH; try assumption.
    + unfold joined in J. cbn in J. apply app_inv_head in J. exact J.
    + intros r b n. pose proof (H (piece_text p ++ r) b n) as Hr. rewrite !split_cons in Hr. split; intros X.
      * destruct (proj1 Hr) as [[E _]|(m & E & Y)]; [right; exists r; auto|exfalso; apply (NE p A1 r); congruence|].
        apply app_inv_head in E. subst m. exact Y.
      * destruct (proj2 Hr) as [[E _]|(m & E & Y)]; [right; exists r; auto|exfalso; apply (NE p A1 r); congruence|].
        apply app_inv_head in E. subst m. exact Y.
Qed.
Lemma cut_atoms_eq s ps qs : cut_of s ps -> cut_of s qs -> atoms ps = atoms qs.
Proof.
  intros [J P] [J' P']. apply atomic_unique; [apply atoms_atomic|apply atoms_atomic|rewrite !joined_atoms; congruence|].
  intros r b n. rewrite !split_atoms. unfold split_at. rewrite <- P, <- P'. reflexivity.
Qed.

(* ------------------------------------------------------------------ replacing *)
Lemma replaced_nil value t : replaced value [] t <-> t = [].
Proof.
  split; [intros (ts & -> & F); inversion F; reflexivity|intros ->; exists []; split; [reflexivity|constructor]].
Qed.
Lemma replaced_cons value p ps t : replaced value (p :: ps) t <->
  exists u v, t = u ++ v /\ match p with Plain x => u = x | Placeholder _ n => value n = Some u end /\ replaced value ps v.
Proof.
  split.
  - intros (ts & -> & F). inversion F as [|? u ? us H1 H2]; subst. exists u, (concat us). split; [reflexivity|]. split; [exact H1|]. exists us. auto.
  - intros (u & v & -> & H & us & -> & F). exists (u :: us). split; [reflexivity|]. constructor; assumption.
Qed.
Lemma replaced_plain value t ps x : replaced value (map (fun c => Plain [c]) t ++ ps) x <-> exists v, x = t ++ v /\ replaced value ps v.
Proof.
  revert x. induction t as [|c t IH]; intros x; cbn [map app].
  - split; [intros H; exists x; auto|intros (v & -> & H); exact H].
  - rewrite replaced_cons. split.
    + intros (u & v & -> & -> & H). apply IH in H. destruct H as (v' & -> & H). exists v'. auto.
    + intros (v & -> & H). exists [c], (t ++ v). split; [reflexivity|]. split; [reflexivity|]. apply IH. exists v. auto.
Qed.
Lemma replaced_atoms value ps x : replaced value (atoms ps) x <-> replaced value ps x.
Proof.
  revert x. induction ps as [|[t|b n] ps IH]; intros x; [reflexivity| |].
  - cbn [atoms flat_map]. change (flat_map _ ps) with (atoms ps). rewrite replaced_plain, replaced_cons. split.
    + intros (v & -> & H). exists t, v. split; [reflexivity|]. split; [reflexivity|apply IH, H].
    + intros (u & v & -> & -> & H). exists v. split; [reflexivity|apply IH, H].
  - cbn [atoms flat_map app]. change (flat_map _ ps) with (atoms ps). rewrite !replaced_cons. split.
    + intros (u & v & A & B & H). exists u, v. split; [exact A|]. split; [exact B|apply IH, H].
    + intros (u & v & A & B & H). exists u, v. split; [exact A|]. split; [exact B|apply IH, H].
Qed.
Lemma replaced_fun value ps x y : replaced value ps x -> replaced value ps y -> x = y.
Proof.
  revert x y. induction ps as [|p ps IH]; intros x y.
  - rewrite !replaced_nil. congruence.
  - rewrite !replaced_cons. intros (u & v & -> & A & H) (u' & v' & -> & B & H'). rewrite (IH _ _ H H'). f_equal.
    destruct p; congruence.
Qed.
Lemma expanded_fun value s x y : expanded value s x -> expanded value s y -> x = y.
Proof.
  intros (ps & C & R) (qs & C' & R'). apply (proj2 (replaced_atoms _ _ _)) in R. apply (proj2 (replaced_atoms _ _ _)) in R'.
  rewrite (cut_atoms_eq _ _ _ C C') in R. eapply replaced_fun; eassumption.
Qed.

Lemma tokens_replace env defaults ts :
  existsb (fun t => match t with Lit _ => false | Var _ n => match resolve_var env defaults n with None => true | Some _ => false end end) ts = false ->
  replaced (value_of env defaults) (map piece_of ts)
    (flat_map (fun t => match t with Lit c => [c] | Var br n => match resolve_var env defaults n with Some v => v
       | None => if br then ("$" :: "{" :: n ++ ["}"])%char else ("$" :: n)%char end end) ts).
Proof.
  induction ts as [|t ts IH]; cbn [existsb map flat_map]; intros E; [apply replaced_nil; reflexivity|].
  apply orb_false_iff in E. destruct E as [E1 E2]. apply replaced_cons. eexists _, _. split; [reflexivity|]. split; [|apply IH, E2].
  destruct t as [c|b n]; cbn [piece_of]; [reflexivity|]. change (value_of env defaults n) with (resolve_var env defaults n).
  destruct (resolve_var env defaults n); [reflexivity|discriminate].
Qed.

Lemma expand_ok env defaults s t : expand_text env defaults s = Ok t <-> expanded (value_of env defaults) s t.
Proof.
  assert (G : forall t, expand_text env defaults s = Ok t -> expanded (value_of env defaults) s t).
  { intros u. unfold expand_text. cbv zeta. destruct (existsb _ _) eqn:E; [discriminate|]. intros [= <-].
    exists (map piece_of (tokens (length s) false s)). split; [apply tokens_cut|apply tokens_replace, E]. }
  split; [apply G|]. intros X. destruct (expand_text env defaults s) as [u|e] eqn:E.
  - f_equal. eapply expanded_fun; [apply G; reflexivity|exact X].
  - exfalso. destruct X as (ps & C & R). pose proof (cut_atoms_eq _ _ _ C (tokens_cut s)) as A.
    apply (proj2 (replaced_atoms _ _ _)) in R. rewrite A in R. apply (proj1 (replaced_atoms _ _ _)) in R. clear A C ps G.
    unfold expand_text in E. cbv zeta in E. destruct (existsb _ _) eqn:Ex; [|discriminate]. clear E.
    revert t R Ex. generalize (tokens (length s) false s) as ts. induction ts as [|x ts IH]; intros t R Ex; [discriminate|].
    cbn in Ex, R. apply replaced_cons in R. destruct R as (a & b & -> & H & R). apply orb_true_iff in Ex. destruct Ex as [Ex|Ex].
    + destruct x as [|br n]; [discriminate|]. cbn in H. change (value_of env defaults n) with (resolve_var env defaults n) in H. rewrite H in Ex. discriminate.
    + eapply IH; eassumption.
Qed.

Lemma expand_err env defaults s e : expand_text env defaults s = Err e <->
  e = ValueError /\ exists before b n, placeholder_after s before b n /\ value_of env defaults n = None.
Proof.
  destruct (tokens_cut s) as [J P]. unfold expand_text. cbv zeta.
  assert (X : existsb (fun t => match t with Lit _ => false | Var _ n => match resolve_var env defaults n with None => true | Some _ => false end end) (tokens (length s) false s) = true
    <-> exists before b n, placeholder_after s before b n /\ value_of env defaults n = None).
  { rewrite existsb_exists. split.
    - intros ([c|b n] & H & E); [discriminate|]. apply in_split in H. destruct H as (f & k & H).
      exists (joined (map piece_of f)), b, n. split; [|unfold value_of; unfold resolve_var in E; destruct (env n); [discriminate|]; destruct (defaults n); [discriminate|reflexivity]].
      apply P. exists (map piece_of f), (map piece_of k). split; [rewrite H, map_app; reflexivity|reflexivity].
    - intros (before & b & n & H & V). apply P in H. destruct H as (f & k & E & _).
      assert (Hin : In (Placeholder b n) (map piece_of (tokens (length s) false s))) by (rewrite E; apply in_or_app; right; left; reflexivity).
      apply in_map_iff in Hin. destruct Hin as (x & Ex & Hx). destruct x as [c|b' n']; [discriminate|]. injection Ex as -> ->.
      exists (Var b n). split; [exact Hx|]. change (resolve_var env defaults n) with (value_of env defaults n). rewrite V. reflexivity. }
  destruct (existsb _ _); split.
  - intros [= <-]. split; [reflexivity|]. apply X. reflexivity.
  - intros [-> _]. reflexivity.
  - discriminate.
  - intros [_ H]. apply X in H. discriminate.
Qed.

(* ------------------------------------------------------------------ values *)
Section Values.
Variables env defaults : text -> option text.
Notation ev := (expand_value env defaults).

Definition ev_items := fix go (d : list (string * pyval)) : result pyval :=
  match d with
  | [] => Ok (PDict [])
  | (k, w) :: r => do w' <- ev w; do r' <- go r; Ok (match r' with PDict x => PDict ((k, w') :: x) | u => u end)
  end.
Definition ev_list := fix go (l : list pyval) : result pyval :=
  match l with
  | [] => Ok (PList [])
  | w :: r => do w' <- ev w; do r' <- go r; Ok (match r' with PList x => PList (w' :: x) | u => u end)
  end.
Lemma ev_dict d : ev (PDict d) = ev_items d. Proof. reflexivity. Qed.
Lemma ev_plist l : ev (PList l) = ev_list l. Proof. reflexivity. Qed.

Lemma ev_items_ok d : forall v, ev_items d = Ok v -> exists e, v = PDict e /\ Forall2 (fun a b => fst a = fst b /\ ev (snd a) = Ok (snd b)) d e.
Proof.
  induction d as [|[k w] d IH]; intros v E; cbn [ev_items] in E.
  - injection E as <-. exists []. split; [reflexivity|constructor].
  - apply bind_ok in E. destruct E as (w' & Ew & E). apply bind_ok in E. destruct E as (r & Er & E). injection E as <-.
    destruct (IH _ Er) as (e & -> & F). exists ((k, w') :: e). split; [reflexivity|]. constructor; [split; [reflexivity|exact Ew]|exact F].
Qed.
Lemma ev_list_ok l : forall v, ev_list l = Ok v -> exists e, v = PList e /\ Forall2 (fun a b => ev a = Ok b) l e.
Proof.
  induction l as [|w l IH]; intros v E; cbn [ev_list] in E.
  - injection E as <-. exists []. split; [reflexivity|constructor].
  - apply bind_ok in E. destruct E as (w' & Ew & E). apply bind_ok in E. destruct E as (r & Er & E). injection E as <-.
    destruct (IH _ Er) as (e & -> & F). exists (w' :: e). split; [reflexivity|]. constructor; [exact Ew|exact F].
Qed.
Lemma ev_items_err d e : ev_items d = Err e -> exists k w, In (k, w) d /\ ev w = Err e.
Proof.
  induction d as [|[k w] d IH]; cbn [ev_items]; [discriminate|]. destruct (ev w) as [w'|e'] eqn:Ew; cbn.
  - destruct (ev_items d) as [r|e''] eqn:Er; cbn; [discriminate|]. intros [= ->]. destruct (IH eq_refl) as (k' & w'' & H & E). exists k', w''. split; [right; exact H|exact E].
  - intros [= ->]. exists k, w. split; [left; reflexivity|exact Ew].
Qed.
Lemma ev_list_err l e : ev_list l = Err e -> exists w, In w l /\ ev w = Err e.
Proof.
  induction l as [|w l IH]; cbn [ev_list]; [discriminate|]. destruct (ev w) as [w'|e'] eqn:Ew; cbn.
  - destruct (ev_list l) as [r|e''] eqn:Er; cbn; [discriminate|]. intros [= ->]. destruct (IH eq_refl) as (w'' & H & E). exists w''. split; [right; exact H|exact E].
  - intros [= ->]. exists w. split; [left; reflexivity|exact Ew].
Qed.
Lemma items_lookup d e k : Forall2 (fun a b => fst a = fst b /\ ev (snd a) = Ok (snd b)) d e ->
  match lookup d k, lookup e k with Some a, Some b => ev a = Ok b | None, None => True | _, _ => False end.
Proof.
  induction 1 as [|[a w] [b w'] d e [E1 E2] F IH]; [exact Logic.I|]. cbn in E1, E2. subst b. rewrite !lookup_cons.
  destruct (String.eqb a k); [exact E2|exact IH].
Qed.
Lemma list_nth l e i : Forall2 (fun a b => ev a = Ok b) l e ->
  match nth_error l i, nth_error e i with Some a, Some b => ev a = Ok b | None, None => True | _, _ => False end.
Proof.
  intros F. revert i. induction F as [|a b l e E F IH]; intros [|i]; cbn; try exact Logic.I; [exact E|apply IH].
Qed.

Lemma ev_places p : forall v v', ev v = Ok v' -> expands_to (value_of env defaults) (value_at v p) (value_at v' p).
Proof.
  induction p as [|[k|i] p IH]; intros v v' E.
  - cbn [value_at]. destruct v as [|b|z|f|s|l|d]; try (cbn in E; injection E as <-; cbn; split; [reflexivity|discriminate]).
    + cbn in E. apply bind_ok in E. destruct E as (t & Et & E). injection E as <-. cbn. rewrite list_ascii_of_string_of_list_ascii. apply expand_ok, Et.
    + rewrite ev_plist in E. apply ev_list_ok in E. destruct E as (e & -> & F). cbn. induction F; cbn; congruence.
    + rewrite ev_dict in E. apply ev_items_ok in E. destruct E as (e & -> & F). cbn. induction F as [|a b d e [E _] F IH]; cbn; congruence.
  - destruct v as [|b|z|f|s|l|d]; try (cbn in E; injection E as <-; exact Logic.I).
    + cbn in E. apply bind_ok in E. destruct E as (t & Et & E). injection E as <-. exact Logic.I.
    + rewrite ev_plist in E. apply ev_list_ok in E. destruct E as (e & -> & F). exact Logic.I.
    + rewrite ev_dict in E. apply ev_items_ok in E. destruct E as (e & -> & F). cbn [value_at].
      pose proof (items_lookup _ _ k F) as H. destruct (lookup d k), (lookup e k); try contradiction; [apply IH, H|exact Logic.I].
  - destruct v as [|b|z|f|s|l|d]; try (cbn in E; injection E as <-; exact Logic.I).
    + cbn in E. apply bind_ok in E. destruct E as (t & Et & E). injection E as <-. exact Logic.I.
    + rewrite ev_plist in E. apply ev_list_ok in E. destruct E as (e & -> & F). cbn [value_at].
      pose proof (list_nth _ _ i F) as H. destruct (nth_error l i), (nth_error e i); try contradiction; [apply IH, H|exact Logic.I].
    + rewrite ev_dict in E. apply ev_items_ok in E. destruct E as (e & -> & F). exact Logic.I.
Qed.

Definition unresolved (v : pyval) : Prop := exists p s before b n, value_at v p = Some (PStr s) /\
  placeholder_after (list_ascii_of_string s) before b n /\ value_of env defaults n = None.
Lemma ev_err v : forall e, unique_keys v -> ev v = Err e -> e = ValueError /\ unresolved v.
Proof.
  induction v as [l IH|d IH|v H1 H2] using pyval_ind'; intros e U E.
  - rewrite ev_plist in E. apply ev_list_err in E. destruct E as (w & Hw & E). rewrite Forall_forall in IH.
    inversion U as [|l' Fl|v' X1 X2]; subst; [|exfalso; eapply X2; reflexivity]. rewrite Forall_forall in Fl.
    destruct (IH w Hw e (Fl w Hw) E) as (-> & p & s & before & b & n & V & P & N). split; [reflexivity|].
    apply In_nth_error in Hw. destruct Hw as (i & Hi). exists (I i :: p), s, before, b, n. cbn [value_at]. rewrite Hi. auto.
  - rewrite ev_dict in E. apply ev_items_err in E. destruct E as (k & w & Hw & E). rewrite Forall_forall in IH.
    inversion U as [d' Nd Fd|l' Fl|v' X1 X2]; subst; [|exfalso; eapply X1; reflexivity]. rewrite Forall_forall in Fd.
    destruct (IH (k, w) Hw e (Fd _ Hw) E) as (-> & p & s & before & b & n & V & P & N). split; [reflexivity|].
    exists (K k :: p), s, before, b, n. cbn [value_at]. apply lookup_some_iff in Hw; [|exact Nd]. rewrite Hw. auto.
  - destruct v as [|b|z|f|s|l|d]; try discriminate; [|exfalso; eapply H2; reflexivity|exfalso; eapply H1; reflexivity].
    cbn in E. destruct (expand_text env defaults (list_ascii_of_string s)) as [t|e'] eqn:Et; [discriminate|]. cbn in E. injection E as ->.
    apply expand_err in Et. destruct Et as (-> & before & b & n & P & N). split; [reflexivity|]. exists [], s, before, b, n. auto.
Qed.
Lemma ev_err_iff v e : unique_keys v -> (ev v = Err e <-> e = ValueError /\ unresolved v).
Proof.
  intros U. split; [apply ev_err, U|]. intros (-> & p & s & before & b & n & V & P & N).
  destruct (ev v) as [v'|e'] eqn:E; [|destruct (ev_err v e' U E) as (-> & _); reflexivity].
  exfalso. pose proof (ev_places p _ _ E) as H. rewrite V in H. cbn in H. destruct (value_at v' p) as [[]|]; try contradiction; try (destruct H as [H _]; discriminate H).
  apply expand_ok in H. assert (X : expand_text env defaults (list_ascii_of_string s) = Err ValueError) by (apply expand_err; split; [reflexivity|eauto]).
  congruence.
Qed.
End Values.

Lemma no_placeholder value s : (forall before b n, ~ placeholder_after s before b n) -> expanded value s s.
Proof.
  intros N. exists [Plain s]. split; [split|].
  - unfold joined. cbn. apply app_nil_r.
  - intros before b n. split; [intros H; exfalso; eapply N, H|]. intros ([|q [|]] & k & E & _); try discriminate.
  - exists [s]. split; [cbn; symmetry; apply app_nil_r|]. constructor; [reflexivity|constructor].
Qed.

(* ------------------------------------------------------------------ "auto" *)
Lemma is_space_blank c : is_space c = true <-> blank c.
Proof.
  unfold is_space, blank. cbv zeta. generalize (nat_of_ascii c). intros n. split.
  - intros H. cbn [In]. lia.
  - cbn [In]. lia.
Qed.
Lemma lower_iff a b : (a = "a" /\ b = "A" \/ a = "u" /\ b = "U" \/ a = "t" /\ b = "T" \/ a = "o" /\ b = "O")%char ->
  forall c, lower c = a <-> either a b c.
Proof.
  intros H c. unfold either. destruct H as [[-> ->]|[[-> ->]|[[-> ->]|[-> ->]]]]; destruct c as [[] [] [] [] [] [] [] []];
    (split; [intros X; first [left; reflexivity | right; reflexivity | exfalso; revert X; vm_compute; discriminate]
            | intros [X|X]; first [discriminate X | reflexivity]]).
Qed.
Lemma lstrip_spec s : exists b, s = b ++ lstrip s /\ Forall blank b.
Proof.
  induction s as [|c s IH]; cbn; [exists []; auto|]. destruct (is_space c) eqn:E; [|exists []; auto].
  destruct IH as (b & E2 & F). exists (c :: b). split; [cbn; f_equal; exact E2|]. constructor; [apply is_space_blank, E|exact F].
Qed.
Lemma lstrip_blanks b s : Forall blank b -> lstrip (b ++ s) = lstrip s.
Proof. induction 1 as [|c b H F IH]; [reflexivity|]. cbn. apply is_space_blank in H. rewrite H. exact IH. Qed.
Lemma strip_spec s : exists a b, s = a ++ strip s ++ b /\ Forall blank a /\ Forall blank b.
Proof.
  destruct (lstrip_spec s) as (a & E & F). destruct (lstrip_spec (rev (lstrip s))) as (b & E' & F').
  exists a, (rev b). split; [|split; [exact F|apply Forall_rev, F']]. unfold strip. rewrite <- rev_app_distr, <- E', rev_involutive. exact E.
Qed.
Lemma says_auto_iff s : says_auto s = true <-> auto_text s.
Proof.
  unfold says_auto, auto_text. destruct (list_eq_dec _ _ _) as [E|E].
  - split; [intros _|reflexivity]. destruct (strip_spec (list_ascii_of_string s)) as (a & b & Es & F & F').
    destruct (strip (list_ascii_of_string s)) as [|x [|y [|z [|w [|]]]]]; cbn in E; try discriminate. injection E as E1 E2 E3 E4.
    exists a, x, y, z, w, b. split; [exact Es|]. split; [exact F|]. split; [exact F'|].
    repeat split; [apply (lower_iff "a" "A")|apply (lower_iff "u" "U")|apply (lower_iff "t" "T")|apply (lower_iff "o" "O")]; tauto.
  - split; [discriminate|]. intros (a & x & y & z & w & b & Es & F & F' & X & Y & Z' & W). exfalso. apply E.
    apply (lower_iff "a" "A") in X; [|tauto]. apply (lower_iff "u" "U") in Y; [|tauto].
    apply (lower_iff "t" "T") in Z'; [|tauto]. apply (lower_iff "o" "O") in W; [|tauto].
    assert (Hx : is_space x = false) by (revert X; destruct x as [[] [] [] [] [] [] [] []]; vm_compute; first [reflexivity|discriminate]).
    assert (Hw : is_space w = false) by (revert W; destruct w as [[] [] [] [] [] [] [] []]; vm_compute; first [reflexivity|discriminate]).
    rewrite Es. unfold strip. rewrite (lstrip_blanks a _ F).
    assert (L1 : lstrip ([x; y; z; w] ++ b) = [x; y; z; w] ++ b) by (cbn; rewrite Hx; reflexivity). rewrite L1.
    rewrite rev_app_distr, (lstrip_blanks (rev b)) by (apply Forall_rev, F').
    assert (L2 : lstrip (rev [x; y; z; w]) = [w; z; y; x]) by (cbn; rewrite Hw; reflexivity). rewrite L2.
    cbn. rewrite X, Y, Z', W. reflexivity.
Qed.
Lemma auto_key_iff k : auto_key k = true <-> auto_setting k.
Proof.
  unfold auto_key, auto_setting, memS. cbn [existsb]. rewrite !orb_true_iff, !String.eqb_eq. intuition congruence.
Qed.

Definition auto_at (v : pyval) (q : place) : Prop :=
  exists r k s, q = r ++ [K k] /\ value_at v q = Some (PStr s) /\ auto_text s /\ auto_setting k.

Lemma app_prefix_inj {A} (a b c : list A) : a ++ b = a ++ c -> b = c. Proof. apply app_inv_head. Qed.

Lemma auto_at_dict d q : NoDup (map fst d) -> (auto_at (PDict d) q <-> exists k w r, In (k, w) d /\ q = K k :: r /\
  ((r = [] /\ auto_setting k /\ exists s, w = PStr s /\ auto_text s) \/ auto_at w r)).
Proof.
  intros Nd. split.
  - intros (r & k & s & -> & V & T & S'). destruct r as [|[k0|i] r]; cbn [app value_at] in V; [| |discriminate].
    + destruct (lookup d k) as [w|] eqn:L; [|discriminate]. injection V as ->. exists k, (PStr s), []. apply lookup_in in L. eauto 10.
    + destruct (lookup d k0) as [w|] eqn:L; [|discriminate]. exists k0, w, (r ++ [K k]). apply lookup_in in L. split; [exact L|]. split; [reflexivity|].
      right. exists r, k, s. auto.
  - intros (k & w & r & Hin & -> & H). apply lookup_some_iff in Hin; [|exact Nd]. destruct H as [(-> & S' & s & -> & T)|(r' & k' & s & -> & V & T & S')].
    + exists [], k, s. cbn [app value_at]. rewrite Hin. auto.
    + exists (K k :: r'), k', s. cbn [app value_at]. rewrite Hin. auto.
Qed.
Lemma auto_at_list l q : auto_at (PList l) q <-> exists i w r, nth_error l i = Some w /\ q = I i :: r /\ auto_at w r.
Proof.
  split.
  - intros (r & k & s & -> & V & T & S'). destruct r as [|[k0|i] r]; cbn [app value_at] in V; try discriminate.
    destruct (nth_error l i) as [w|] eqn:L; [|discriminate]. exists i, w, (r ++ [K k]). split; [exact L|]. split; [reflexivity|]. exists r, k, s. auto.
  - intros (i & w & r & L & -> & r' & k & s & -> & V & T & S'). exists (I i :: r'), k, s. cbn [app value_at]. rewrite L. auto.
Qed.

Lemma scan_auto_spec v : forall at_ p, unique_keys v -> (In p (scan_auto v at_) <-> exists q, p = at_ ++ q /\ auto_at v q).
Proof.
  induction v as [l IH|d IH|v H1 H2] using pyval_ind'; intros at_ p U.
  - assert (G : forall i, In p ((fix go (i : nat) (l : list pyval) : list place := match l with [] => [] | w :: r => scan_auto w (at_ ++ [I i]) ++ go (S i) r end) i l)
      <-> exists j w r, nth_error l j = Some w /\ p = at_ ++ I (i + j) :: r /\ auto_at w r).
    { assert (Ul : Forall unique_keys l) by (inversion U; subst; [assumption|exfalso; eapply H0; reflexivity]). clear U.
      induction l as [|w l IHl]; intros i.
      - split; [intros []|intros ([|] & ? & ? & E & _); discriminate].
      - inversion_clear IH as [|? ? IHw IHr]. inversion_clear Ul as [|? ? Uw Ur]. rewrite in_app_iff, (IHl IHr Ur), (IHw _ _ Uw). split.
        + intros [(q & -> & A)|(j & w' & r & E & -> & A)].
          * exists 0%nat, w, q. rewrite Nat.add_0_r, <- app_assoc. auto.
          * exists (S j), w', r. rewrite Nat.add_succ_r. auto.
        + intros ([|j] & w' & r & E & -> & A); cbn in E.
          * injection E as ->. left. exists r. rewrite Nat.add_0_r, <- app_assoc. auto.
          * right. exists j, w', r. rewrite Nat.add_succ_r. auto. }
    cbn [scan_auto]. rewrite (G 0%nat). split.
    + intros (j & w & r & E & -> & A). exists (I j :: r). split; [reflexivity|]. apply auto_at_list. exists j, w, r. auto.
    + intros (q & -> & A). apply auto_at_list in A. destruct A as (i & w & r & E & -> & A). exists i, w, r. auto.
  - assert (Nd : NoDup (map fst d)) by (inversion U; subst; [assumption|exfalso; eapply H; reflexivity]).
    assert (Ud : Forall (fun kv => unique_keys (snd kv)) d) by (inversion U; subst; [assumption|exfalso; eapply H; reflexivity]). clear U.
    transitivity (exists q, p = at_ ++ q /\ exists k w r, In (k, w) d /\ q = K k :: r /\ ((r = [] /\ auto_setting k /\ exists s, w = PStr s /\ auto_text s) \/ auto_at w r)).
    2:{ split; intros (q & E & H); exists q; (split; [exact E|apply (auto_at_dict _ _ Nd), H]). }
    clear Nd. cbn [scan_auto]. induction d as [|[k w] d IHd].
    + split; [intros []|intros (q & _ & ? & ? & ? & [] & _)].
    + inversion_clear IH as [|? ? IHw IHr]. inversion_clear Ud as [|? ? Uw Ur]. cbn in IHw, Uw. rewrite !in_app_iff, (IHd IHr Ur), (IHw _ _ Uw). split.
      * intros [H|[(q & -> & A)|(q & -> & k' & w' & r & Hin & E & H)]].
        -- destruct w; try contradiction. destruct (says_auto s && auto_key k) eqn:B; [|contradiction]. destruct H as [<-|[]].
           apply andb_true_iff in B. destruct B as [B1 B2]. apply says_auto_iff in B1. apply auto_key_iff in B2.
           exists [K k]. split; [reflexivity|]. exists k, (PStr s), []. split; [left; reflexivity|]. split; [reflexivity|]. left. eauto.
        -- exists (K k :: q). rewrite <- app_assoc. split; [reflexivity|]. exists k, w, q. split; [left; reflexivity|]. auto.
        -- exists q. split; [reflexivity|]. exists k', w', r. split; [right; exact Hin|]. auto.
      * intros (q & -> & k' & w' & r & [Hin|Hin] & -> & H).
        -- injection Hin as -> ->. destruct H as [(-> & S' & s & -> & T)|A].
           ++ left. apply says_auto_iff in T. apply auto_key_iff in S'. rewrite T, S'. left. reflexivity.
           ++ right. left. exists r. rewrite <- app_assoc. auto.
        -- right. right. exists (K k' :: r). split; [reflexivity|]. exists k', w', r. auto.
  - split.
    + destruct v; try (intros []); [exfalso; eapply H2; reflexivity|exfalso; eapply H1; reflexivity].
    + intros (q & -> & r & k & s & -> & V & _). exfalso. destruct r as [|[k0|i] r]; cbn [app value_at] in V; destruct v; try discriminate; first [eapply H1; reflexivity|eapply H2; reflexivity].
Qed.
