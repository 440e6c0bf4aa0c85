From Coq Require Import String Ascii Lia ZifyBool ZifyNat.
From Verif Require Import Prelude ListFacts BundleProofs PyValue RegModel RegProofs OmlModel OmlSpec.
Local Open Scope string_scope.
Local Open Scope Z_scope.
Local Open Scope list_scope.
Local Notation length := List.length.

Definition blankb (t : text) : Prop := forall c, In c t -> is_space c = true.
Definition cleanb (t : text) : Prop := forall a r, (t = a :: r -> is_space a = false) /\ (t = r ++ [a] -> is_space a = false).
Lemma is_space_spec c : is_space c = true <-> white c.
Proof. destruct c as [[] [] [] [] [] [] [] []]; unfold white; vm_compute; (split; [intros H; try discriminate H; tauto|intros H; repeat (destruct H as [H|H]; [first [discriminate H|reflexivity]|]); destruct H]). Qed.
Lemma not_space_spec c : is_space c = false <-> ~ white c.
Proof. rewrite <- is_space_spec; destruct (is_space c); split; congruence. Qed.
Lemma blank_b t : blank t -> blankb t.
Proof. intros H c Hc; apply is_space_spec, H, Hc. Qed.
Lemma clean_b t : clean t -> cleanb t.
Proof. intros H a r; destruct (H a r) as (H1 & H2); split; intros E; apply not_space_spec; auto. Qed.
Lemma is_digit_spec c : is_digit c = true -> exists d, (d < 10)%nat /\ c = ascii_of_nat (48 + d) /\ d = (nat_of_ascii c - 48)%nat.
Proof.
  unfold is_digit; cbv zeta; intros H; apply andb_true_iff in H; destruct H as (H1 & H2); apply Nat.leb_le in H1, H2.
  exists (nat_of_ascii c - 48)%nat; split; [lia|split; [|reflexivity]]; replace (48 + (nat_of_ascii c - 48))%nat with (nat_of_ascii c) by lia; symmetry; apply ascii_nat_embedding.
Qed.
Lemma digit_of d : (d < 10)%nat -> is_digit (ascii_of_nat (48 + d)) = true /\ (nat_of_ascii (ascii_of_nat (48 + d)) - 48)%nat = d.
Proof. intros H; unfold is_digit; rewrite nat_ascii_embedding by lia; cbv zeta; split; [apply andb_true_iff; split; apply Nat.leb_le; lia|lia]. Qed.
Lemma reads_fwd t n : reads_as t n -> forallb is_digit t = true /\ int_of t = n.
Proof.
  intros H; induction H as [|t n c d _ (F & E) Hd ->]; [split; reflexivity|]; destruct (digit_of d Hd) as (D1 & D2); split.
  - rewrite forallb_app, F; cbn [forallb]; rewrite D1; reflexivity.
  - unfold int_of in *; rewrite fold_left_app, E; cbn [fold_left]; rewrite D2; reflexivity.
Qed.
Lemma reads_bwd t : forallb is_digit t = true -> reads_as t (int_of t).
Proof.
  induction t as [|c t IH] using rev_ind; intros H; [constructor|]; rewrite forallb_app in H; apply andb_true_iff in H; destruct H as (Ht & Hc).
  cbn [forallb] in Hc; rewrite andb_true_r in Hc; destruct (is_digit_spec c Hc) as (d & Hd & Ec & Ed); unfold int_of; rewrite fold_left_app; cbn [fold_left]; rewrite <- Ed.
  apply (reads_digit t (int_of t) c d); [apply IH; exact Ht|exact Hd|exact Ec].
Qed.
Lemma number_spec t n : number t n <-> isdigit t = true /\ int_of t = n.
Proof.
  unfold number, isdigit; rewrite andb_true_iff; split.
  - intros (Hn & H); apply reads_fwd in H; destruct H as (F & E); split; [split; [destruct t; [destruct (Hn eq_refl)|reflexivity]|exact F]|exact E].
  - intros ((Hn & F) & <-); split; [intros ->; discriminate|apply reads_bwd; exact F].
Qed.
Lemma str_txt s : str (txt s) = s.
Proof. apply string_of_list_ascii_of_string. Qed.
Lemma txt_str t : txt (str t) = t.
Proof. apply list_ascii_of_string_of_list_ascii. Qed.
Lemma lstrip_blank b s : blankb b -> lstrip (b ++ s) = lstrip s.
Proof. induction b as [|c b IH]; intros H; [reflexivity|]; cbn [app lstrip]; rewrite (H c (or_introl eq_refl)); apply IH; intros d Hd; apply H; right; exact Hd. Qed.
Lemma lstrip_all b : blankb b -> lstrip b = [].
Proof. intros H; rewrite <- (app_nil_r b), lstrip_blank by exact H; reflexivity. Qed.
Lemma lstrip_head a s : is_space a = false -> lstrip (a :: s) = a :: s.
Proof. intros H; cbn [lstrip]; rewrite H; reflexivity. Qed.
Lemma lstrip_split s : exists b, blankb b /\ s = b ++ lstrip s /\ (lstrip s = [] \/ exists a r, lstrip s = a :: r /\ is_space a = false).
Proof.
  induction s as [|c s IH]; [exists []; split; [intros ? []|split; [reflexivity|left; reflexivity]]|].
  cbn [lstrip]; destruct (is_space c) eqn:E; [|exists []; split; [intros ? []|split; [reflexivity|right; exists c, s; split; [reflexivity|exact E]]]].
  destruct IH as (b & Hb & Es & Hc); exists (c :: b); split; [intros d [<-|Hd]; [exact E|apply Hb; exact Hd]|split; [cbn; f_equal; exact Es|exact Hc]].
Qed.
Lemma lstrip_app s t : (exists a, In a s /\ is_space a = false) -> lstrip (s ++ t) = lstrip s ++ t.
Proof.
  induction s as [|c s IH]; intros (a & Ha & E); [destruct Ha|]; cbn [app lstrip]; destruct (is_space c) eqn:Ec; [|reflexivity].
  apply IH; exists a; split; [destruct Ha as [->|Ha]; [congruence|exact Ha]|exact E].
Qed.
Lemma blank_rev b : blankb b -> blankb (rev b).
Proof. intros H c Hc; apply H; apply in_rev; exact Hc. Qed.
Lemma rstrip_blank s b : blankb b -> rstrip (s ++ b) = rstrip s.
Proof. intros H; unfold rstrip; rewrite rev_app_distr, lstrip_blank by (apply blank_rev; exact H); reflexivity. Qed.
Lemma rstrip_all b : blankb b -> rstrip b = [].
Proof. intros H; unfold rstrip; rewrite lstrip_all by (apply blank_rev; exact H); reflexivity. Qed.
Lemma rstrip_app s t : (exists a, In a t /\ is_space a = false) -> rstrip (s ++ t) = s ++ rstrip t.
Proof.
  intros (a & Ha & E); unfold rstrip; rewrite rev_app_distr, lstrip_app by (exists a; split; [apply in_rev; rewrite rev_involutive; exact Ha|exact E]).
  rewrite rev_app_distr, rev_involutive; reflexivity.
Qed.
Lemma strip_left b s : blankb b -> strip (b ++ s) = strip s.
Proof. intros H; unfold strip; rewrite lstrip_blank by exact H; reflexivity. Qed.
Lemma blank_or s : blankb s \/ exists a, In a s /\ is_space a = false.
Proof.
  induction s as [|c s [IH|(a & Ha & E)]]; [left; intros ? []| |right; exists a; split; [right; exact Ha|exact E]].
  destruct (is_space c) eqn:E; [left; intros d [<-|Hd]; [exact E|apply IH; exact Hd]|right; exists c; split; [left; reflexivity|exact E]].
Qed.
Lemma blank_app a b : blankb a -> blankb b -> blankb (a ++ b).
Proof. intros Ha Hb c Hc; apply in_app_or in Hc; destruct Hc; auto. Qed.
Lemma strip_right s b : blankb b -> strip (s ++ b) = strip s.
Proof.
  intros H; unfold strip; destruct (blank_or s) as [Hs|Hs].
  - rewrite !lstrip_all by (try apply blank_app; assumption); reflexivity.
  - rewrite lstrip_app by exact Hs; apply rstrip_blank; exact H.
Qed.
Lemma strip_clean t : cleanb t -> strip t = t.
Proof.
  intros H; unfold strip; destruct t as [|a r]; [reflexivity|].
  destruct (H a r) as (Ha & _); specialize (Ha eq_refl); rewrite lstrip_head by exact Ha.
  destruct (@exists_last _ (a :: r) ltac:(discriminate)) as (i & z & E); rewrite E; unfold rstrip; rewrite rev_app_distr; cbn [rev app].
  destruct (H z i) as (_ & Hz); rewrite lstrip_head by (apply Hz; exact E); cbn [rev]; rewrite rev_involutive; reflexivity.
Qed.
Lemma strip_around b t b' : blankb b -> cleanb t -> blankb b' -> strip (b ++ t ++ b') = t.
Proof. intros H1 H2 H3; rewrite strip_left, strip_right by assumption; apply strip_clean; exact H2. Qed.
Lemma strip_lstrip s : strip (lstrip s) = strip s.
Proof. destruct (lstrip_split s) as (b & Hb & E & _); rewrite E at 2; rewrite strip_left by exact Hb; reflexivity. Qed.
Lemma rstrip_split s : exists b, blankb b /\ s = rstrip s ++ b.
Proof. destruct (lstrip_split (rev s)) as (b & Hb & E & _); exists (rev b); split; [apply blank_rev; exact Hb|]; unfold rstrip; rewrite <- rev_app_distr, <- E, rev_involutive; reflexivity. Qed.
Lemma strip_rstrip s : strip (rstrip s) = strip s.
Proof. destruct (rstrip_split s) as (b & Hb & E); rewrite E at 2; rewrite strip_right by exact Hb; reflexivity. Qed.

(* splitting at commas *)
Lemma split_app c s t : ~ In c s -> split_on c (s ++ t) = match split_on c t with p :: ps => (s ++ p) :: ps | [] => [s] end.
Proof.
  induction s as [|a s IH]; intros H.
  - cbn [app]; destruct (split_on c t) eqn:E; [destruct t as [|a t]; [discriminate|cbn [split_on] in E; destruct (Ascii.eqb a c); [discriminate|destruct (split_on c t); discriminate]]|reflexivity].
  - cbn [app split_on]; destruct (Ascii.eqb_spec a c) as [->|_]; [destruct H; left; reflexivity|].
    rewrite IH by (intros Hc; apply H; right; exact Hc); destruct (split_on c t); reflexivity.
Qed.
Lemma split_none c s : ~ In c s -> split_on c s = [s].
Proof. intros H; rewrite <- (app_nil_r s) at 1; rewrite split_app by exact H; cbn [split_on]; rewrite app_nil_r; reflexivity. Qed.
Lemma split_at c s t : ~ In c s -> split_on c (s ++ c :: t) = s :: split_on c t.
Proof. intros H; rewrite split_app by exact H; cbn [split_on]; rewrite Ascii.eqb_refl, app_nil_r; reflexivity. Qed.
Lemma split_nonempty c s : split_on c s <> [].
Proof. destruct s as [|a s]; [discriminate|]; cbn [split_on]; destruct (Ascii.eqb a c); [discriminate|]; destruct (split_on c s); discriminate. Qed.
Lemma blank_no_comma b : blankb b -> ~ In ","%char b.
Proof. intros H Hc; apply H in Hc; discriminate. Qed.
Lemma split_left b s : blankb b -> map strip (split_on "," (b ++ s)) = map strip (split_on "," s).
Proof.
  intros H; rewrite split_app by (apply blank_no_comma; exact H); pose proof (split_nonempty "," s) as N; destruct (split_on "," s) as [|p ps]; [destruct (N eq_refl)|].
  cbn [map]; rewrite strip_left by exact H; reflexivity.
Qed.
Lemma split_right s b : blankb b -> map strip (split_on "," (s ++ b)) = map strip (split_on "," s).
Proof.
  intros H; induction s as [|a s IH]; [cbn [app]; rewrite split_none by (apply blank_no_comma; exact H); cbn [split_on map]; unfold strip; rewrite lstrip_all by exact H; reflexivity|].
  cbn [app split_on]; destruct (Ascii.eqb a ","); [cbn [map]; f_equal; exact IH|].
  pose proof (split_nonempty "," (s ++ b)) as N1; pose proof (split_nonempty "," s) as N2.
  destruct (split_on "," (s ++ b)) as [|p ps] eqn:E1; [destruct (N1 eq_refl)|]; destruct (split_on "," s) as [|q qs] eqn:E2; [destruct (N2 eq_refl)|].
  cbn [map] in *; injection IH as Ep Eps; f_equal; [|exact Eps].
  assert (P : p = q \/ (ps = [] /\ qs = [] /\ p = q ++ b)).
  { clear - E1 E2 H; revert p ps q qs E1 E2; induction s as [|c s IH]; intros p ps q qs E1 E2.
    - cbn [app] in E1; rewrite split_none in E1 by (apply blank_no_comma; exact H); injection E1 as <- <-; injection E2 as <- <-; right; repeat split.
    - cbn [app split_on] in E1, E2; destruct (Ascii.eqb c ","); [injection E1 as <- _; injection E2 as <- _; left; reflexivity|].
      pose proof (split_nonempty "," (s ++ b)) as N1; pose proof (split_nonempty "," s) as N2.
      destruct (split_on "," (s ++ b)) as [|p' ps'] eqn:F1; [destruct (N1 eq_refl)|]; destruct (split_on "," s) as [|q' qs'] eqn:F2; [destruct (N2 eq_refl)|].
      injection E1 as <- <-; injection E2 as <- <-; destruct (IH _ _ _ _ eq_refl eq_refl) as [->|(-> & -> & ->)]; [left; reflexivity|right; repeat split]. }
  destruct P as [->|(_ & _ & ->)]; [reflexivity|]; change (a :: q ++ b) with ((a :: q) ++ b); apply strip_right; exact H.
Qed.
Lemma split_strip s : map strip (split_on "," (strip s)) = map strip (split_on "," s).
Proof.
  unfold strip at 2; destruct (lstrip_split s) as (b & Hb & E & _); destruct (rstrip_split (lstrip s)) as (b' & Hb' & E').
  rewrite E at 2; rewrite split_left by exact Hb; rewrite E' at 2; rewrite split_right by exact Hb'; reflexivity.
Qed.

(* one part *)
Lemma cut_at x y : ~ In "="%char x -> cut (x ++ "="%char :: y) = Some (x, y).
Proof.
  induction x as [|a x IH]; intros H; [reflexivity|]; cbn [app cut]; destruct (Ascii.eqb_spec a "=") as [->|_]; [destruct H; left; reflexivity|].
  rewrite IH by (intros Hc; apply H; right; exact Hc); reflexivity.
Qed.
Lemma cut_none x : ~ In "="%char x -> cut x = None.
Proof. induction x as [|a x IH]; intros H; [reflexivity|]; cbn [cut]; destruct (Ascii.eqb_spec a "=") as [->|_]; [destruct H; left; reflexivity|]; rewrite IH by (intros Hc; apply H; right; exact Hc); reflexivity. Qed.
Lemma lstrip_in c s : In c (lstrip s) -> In c s.
Proof. destruct (lstrip_split s) as (b & _ & E & _); intros H; rewrite E; apply in_or_app; right; exact H. Qed.
Lemma strip_part x y : strip (x ++ "="%char :: y) = lstrip x ++ rstrip ("="%char :: y) /\ exists y', rstrip ("="%char :: y) = "="%char :: y' /\ strip y' = strip y.
Proof.
  assert (E : exists a, In a (x ++ ["="%char]) /\ is_space a = false) by (exists "="%char; split; [apply in_or_app; right; left; reflexivity|reflexivity]).
  split.
  - unfold strip; replace (x ++ "="%char :: y) with ((x ++ ["="%char]) ++ y) by (rewrite <- app_assoc; reflexivity).
    rewrite lstrip_app by exact E.
    assert (L : lstrip (x ++ ["="%char]) = lstrip x ++ ["="%char]).
    { destruct (blank_or x) as [B|B]; [rewrite lstrip_blank, (lstrip_all x) by exact B; reflexivity|apply lstrip_app; exact B]. }
    rewrite L, <- app_assoc; apply rstrip_app; exists "="%char; split; [left; reflexivity|reflexivity].
  - destruct (blank_or y) as [B|B].
    + exists []; split; [change ("="%char :: y) with (["="%char] ++ y); rewrite rstrip_blank by exact B; reflexivity|].
      unfold strip; rewrite (lstrip_all y) by exact B; reflexivity.
    + exists (rstrip y); split; [exact (rstrip_app ["="%char] y B)|apply strip_rstrip].
Qed.
Lemma written_part kv t out : written kv t -> strip t <> [] /\ add_part out (strip t) = dput out (str (fst kv)) (PStr (str (snd kv))).
Proof.
  intros (b1 & b2 & b3 & b4 & H1 & H2 & H3 & H4 & Ck & Cv & Ne & _ & _ & ->).
  apply blank_b in H1, H2, H3, H4; apply clean_b in Ck, Cv.
  assert (A : b1 ++ fst kv ++ b2 ++ "="%char :: b3 ++ snd kv ++ b4 = (b1 ++ fst kv ++ b2) ++ "="%char :: (b3 ++ snd kv ++ b4)) by (rewrite <- !app_assoc; reflexivity).
  rewrite A; clear A; set (x := b1 ++ fst kv ++ b2); set (y := b3 ++ snd kv ++ b4).
  destruct (strip_part x y) as (-> & y' & -> & Ey); split; [intros E; destruct (lstrip x); discriminate|].
  unfold add_part; rewrite cut_at.
  - rewrite strip_lstrip, Ey; unfold x, y; rewrite !strip_around by assumption; reflexivity.
  - intros Hc; apply lstrip_in in Hc; unfold x in Hc; apply in_app_or in Hc; destruct Hc as [Hc|Hc]; [apply H1 in Hc; discriminate|]; apply in_app_or in Hc; destruct Hc as [Hc|Hc]; [contradiction|apply H2 in Hc; discriminate].
Qed.
Lemma written_no_comma kv t : written kv t -> ~ In ","%char t.
Proof.
  intros (b1 & b2 & b3 & b4 & H1 & H2 & H3 & H4 & _ & _ & _ & N1 & N2 & ->) Hc; apply blank_b in H1, H2, H3, H4.
  apply in_app_or in Hc; destruct Hc as [Hc|Hc]; [apply H1 in Hc; discriminate|]; apply in_app_or in Hc; destruct Hc as [Hc|Hc]; [contradiction|]; apply in_app_or in Hc; destruct Hc as [Hc|Hc]; [apply H2 in Hc; discriminate|].
  destruct Hc as [Hc|Hc]; [discriminate|]; apply in_app_or in Hc; destruct Hc as [Hc|Hc]; [apply H3 in Hc; discriminate|]; apply in_app_or in Hc; destruct Hc as [Hc|Hc]; [contradiction|apply H4 in Hc; discriminate].
Qed.
Lemma split_join ts : ts <> [] -> Forall (fun t => ~ In ","%char t) ts -> split_on "," (join ts) = ts.
Proof.
  intros N F; induction F as [|t ts Ht F IH]; [destruct (N eq_refl)|]; destruct ts as [|t' ts]; [apply split_none; exact Ht|].
  change (join (t :: t' :: ts)) with (t ++ ","%char :: join (t' :: ts)); rewrite split_at by exact Ht; f_equal; apply IH; discriminate.
Qed.
Definition put_pair (d : pydict) (kv : text * text) : pydict := dput d (str (fst kv)) (PStr (str (snd kv))).
Lemma fold_written kvs ts : Forall2 written kvs ts -> forall d, fold_left add_part (filter (fun p => negb (Nat.eqb (length p) 0)) (map strip ts)) d = fold_left put_pair kvs d.
Proof.
  intros F; induction F as [|kv t kvs ts H _ IH]; intros d; [reflexivity|]; cbn [map filter fold_left].
  destruct (written_part kv t d H) as (Hn & Ha); destruct (Nat.eqb_spec (length (strip t)) 0) as [E|_]; [apply length_zero_iff_nil in E; contradiction|].
  cbn [negb fold_left]; rewrite Ha; apply IH.
Qed.
Lemma fold_get kvs d k : dget (fold_left put_pair kvs d) k = match last_value kvs k with Some v => Some (PStr (str v)) | None => dget d k end.
Proof.
  revert d; induction kvs as [|(k', v) kvs IH]; intros d; [reflexivity|]; cbn [fold_left last_value]; rewrite IH; destruct (last_value kvs k); [reflexivity|].
  unfold put_pair; cbn [fst snd]; rewrite dput_get; destruct (String.eqb (str k') k); reflexivity.
Qed.
Lemma join_in c ts t : In t ts -> In c t -> In c (join ts).
Proof.
  induction ts as [|t' ts IH]; intros Hi Hc; [destruct Hi|]; destruct Hi as [<-|Ht]; destruct ts as [|t2 ts]; cbn [join]; try exact Hc.
  - apply in_or_app; left; exact Hc.
  - destruct Ht.
  - apply in_or_app; right; right; apply IH; assumption.
Qed.
Lemma strip_keeps c s : In c s -> is_space c = false -> In c (strip s).
Proof.
  intros H E; destruct (lstrip_split s) as (b & Hb & Es & _); destruct (rstrip_split (lstrip s)) as (b' & Hb' & Es').
  rewrite Es in H; apply in_app_or in H; destruct H as [H|H]; [apply Hb in H; congruence|]; rewrite Es' in H; apply in_app_or in H; destruct H as [H|H]; [exact H|apply Hb' in H; congruence].
Qed.
Lemma isdigit_no c s : In c s -> is_digit c = false -> isdigit s = false.
Proof. intros H E; unfold isdigit; apply andb_false_iff; right; apply not_true_iff_false; rewrite forallb_forall; intros F; specialize (F c H); congruence. Qed.
Lemma merge_get base options k : NoDup (map fst options) -> dget (merge base options) k = setting base options k.
Proof.
  unfold merge, setting; revert base; induction options as [|(k', v) r IH]; intros base N; [reflexivity|].
  cbn [map fst] in N; inversion N as [|? ? Hk Nr]; subst; cbn [fold_left fst snd dget]; rewrite IH by exact Nr.
  destruct (String.eqb_spec k' k) as [->|Hn].
  - destruct (dget r k) as [w|] eqn:E; [destruct Hk; apply dget_In; exists w; exact E|]; rewrite dput_get, String.eqb_refl; reflexivity.
  - destruct (dget r k); [reflexivity|]; rewrite dput_get; destruct (String.eqb_spec k' k); [contradiction|reflexivity].
Qed.
