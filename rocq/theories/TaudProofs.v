From Coq Require Import String Ascii Lia ZifyBool ZifyNat.
From Verif Require Import Prelude ListFacts BundleProofs PyValue OmlModel OmlSpec OmlProofs TaudModel TaudSpec.
Local Open Scope string_scope.
Local Open Scope list_scope.
Local Notation length := List.length.

Lemma slashes_eq l : slashes l = slashed l.
Proof. induction l as [|t [|t' r] IH]; [reflexivity|reflexivity|]; change (slashes (t :: t' :: r)) with (t ++ txt "/" ++ slashes (t' :: r)); rewrite IH; reflexivity. Qed.
Lemma split_slashed l : l <> [] -> (forall t, In t l -> part t) -> split_on "/" (slashed l) = l.
Proof.
  induction l as [|t l IH]; intros N H; [destruct (N eq_refl)|]; destruct (H t (or_introl eq_refl)) as (_ & _ & Ht); destruct l as [|t' l]; [apply split_none; exact Ht|].
  change (slashed (t :: t' :: l)) with (t ++ "/"%char :: slashed (t' :: l)); rewrite split_at by exact Ht; f_equal; apply IH; [discriminate|intros u Hu; apply H; right; exact Hu].
Qed.
Lemma part_kept t : part t -> negb (Nat.eqb (length t) 0 || String.eqb (str t) ".") = true.
Proof.
  intros (H1 & H2 & _); destruct t as [|c t]; [destruct (H1 eq_refl)|]; cbn [length Nat.eqb orb]; destruct (String.eqb_spec (str (c :: t)) ".") as [E|E]; [|reflexivity].
  destruct H2; rewrite <- E, txt_str; reflexivity.
Qed.
Lemma to_path_spells abs l s : spells abs l s -> to_path s = {| p_abs := abs; p_parts := l |}.
Proof.
  intros (H & N & ->); rewrite slashes_eq; assert (F : filter (fun t => negb (Nat.eqb (length t) 0 || String.eqb (str t) ".")) l = l) by (clear N; induction l as [|t l IH]; [reflexivity|]; cbn [filter]; rewrite part_kept by (apply H; left; reflexivity); f_equal; apply IH; intros u Hu; apply H; right; exact Hu).
  unfold to_path; destruct abs.
  - change (txt "/" ++ slashed l) with ("/"%char :: slashed l); f_equal; cbn [split_on Ascii.eqb Bool.eqb filter length Nat.eqb orb negb]; rewrite split_slashed by assumption; exact F.
  - cbn [app]; f_equal; [|rewrite split_slashed by assumption; exact F].
    destruct l as [|t l]; [destruct (N eq_refl)|]; destruct (H t (or_introl eq_refl)) as (T1 & _ & T3); destruct t as [|c t]; [destruct (T1 eq_refl)|].
    assert (E : exists r, slashed ((c :: t) :: l) = c :: r) by (destruct l; eexists; reflexivity); destruct E as (r & E); change (match slashed ((c :: t) :: l) with [] => false | c0 :: _ => Ascii.eqb c0 "/" end = false); rewrite E.
    destruct (Ascii.eqb_spec c "/") as [->|]; [destruct T3; left; reflexivity|reflexivity].
Qed.
Lemma show_spells abs l : (forall t, In t l -> part t) -> l <> [] -> spells abs l (show_path {| p_abs := abs; p_parts := l |}).
Proof. intros H N; split; [exact H|split; [exact N|]]; rewrite slashes_eq; unfold show_path; cbn [p_abs p_parts]; destruct abs; [reflexivity|]; destruct l; [destruct (N eq_refl)|reflexivity]. Qed.

Lemma last_dot_none n : ~ In "."%char n -> last_dot n = None.
Proof. induction n as [|c n IH]; intros H; [reflexivity|]; cbn [last_dot]; rewrite IH by (intros Hi; apply H; right; exact Hi); destruct (Ascii.eqb_spec c "."); [subst; destruct H; left; reflexivity|reflexivity]. Qed.
Lemma last_dot_some s t : ~ In "."%char t -> last_dot (s ++ "."%char :: t) = Some (length s).
Proof. intros H; induction s as [|c s IH]; [cbn [app last_dot]; rewrite last_dot_none by exact H; reflexivity|]; cbn [app last_dot length]; rewrite IH; reflexivity. Qed.
Lemma stem_plain n : ~ In "."%char n -> stem n = n.
Proof. intros H; unfold stem; rewrite last_dot_none by exact H; reflexivity. Qed.
Lemma stem_dotted s t : s <> [] -> t <> [] -> ~ In "."%char t -> stem (s ++ "."%char :: t) = s.
Proof.
  intros Hs Ht H; unfold stem; rewrite last_dot_some by exact H; rewrite app_length; cbn [length].
  destruct s as [|a s]; [destruct (Hs eq_refl)|]; destruct t as [|b t]; [destruct (Ht eq_refl)|]; cbn [length].
  replace ((0 <? S (length s))%nat && (S (length s) <? S (length s) + S (S (length t)) - 1)%nat) with true by (symmetry; apply andb_true_iff; split; apply Nat.ltb_lt; lia).
  rewrite firstn_app; cbn [length]; rewrite Nat.sub_diag, firstn_O, app_nil_r; apply (firstn_all (a :: s)).
Qed.
Lemma stem_head a n : exists r, stem (a :: n) = a :: r.
Proof.
  unfold stem; destruct (last_dot (a :: n)) as [i|]; [|exists n; reflexivity]; destruct i as [|i]; [exists n; reflexivity|]; destruct ((0 <? S i)%nat && _); [exists (firstn i n); reflexivity|exists n; reflexivity].
Qed.
Lemma last_app {A} (l : list A) a d : last (l ++ [a]) d = a.
Proof. induction l as [|b [|c l] IH]; [reflexivity|reflexivity|exact IH]. Qed.
Lemma removelast_last {A} (l : list A) a : removelast (l ++ [a]) = l.
Proof. rewrite removelast_app by discriminate; cbn; apply app_nil_r. Qed.
Lemma with_suffix_at abs dir n s : n <> [] -> with_suffix {| p_abs := abs; p_parts := dir ++ [n] |} s = Ok {| p_abs := abs; p_parts := dir ++ [stem n ++ txt s] |}.
Proof. intros H; unfold with_suffix, name_of; cbn [p_parts p_abs]; rewrite last_app, removelast_last; destruct n; [destruct (H eq_refl)|reflexivity]. Qed.

Lemma up_spec a d : (65 <= nat_of_ascii d <= 90)%nat -> (up a = d <-> letter_of d a).
Proof.
  intros Hd; unfold letter_of; assert (B : forall c, (nat_of_ascii c < 256)%nat) by (intros c; apply nat_ascii_bounded).
  pose proof (B a) as Ba; unfold up; cbv zeta.
  destruct ((97 <=? nat_of_ascii a)%nat && (nat_of_ascii a <=? 122)%nat) eqn:E.
  - apply andb_true_iff in E; destruct E as (E1 & E2); apply Nat.leb_le in E1, E2; split.
    + intros <-; right; rewrite nat_ascii_embedding by lia; lia.
    + intros [->|H]; [lia|]; rewrite H; replace (nat_of_ascii d + 32 - 32)%nat with (nat_of_ascii d) by lia; apply ascii_nat_embedding.
  - split; [intros ->; left; reflexivity|intros [->|H]; [reflexivity|]]; apply andb_false_iff in E; destruct E as [E|E]; apply Nat.leb_gt in E; lia.
Qed.
Lemma says_spec cls w : (forall d, In d (txt w) -> (65 <= nat_of_ascii d <= 90)%nat) -> (str (map up (strip cls)) = w <-> says cls w).
Proof.
  intros Hw; split.
  - intros E; destruct (lstrip_split cls) as (b & Hb & E1 & _); destruct (rstrip_split (lstrip cls)) as (b' & Hb' & E2).
    exists b, (strip cls), b'; split; [intros c Hc; apply is_space_spec, Hb, Hc|split; [intros c Hc; apply is_space_spec, Hb', Hc|split; [unfold strip; rewrite <- E2; exact E1|]]].
    assert (M : map up (strip cls) = txt w) by (rewrite <- E, txt_str; reflexivity); clear - M Hw; revert M Hw; generalize (strip cls), (txt w); intros c; induction c as [|a c IH]; intros [|d l] M Hw; try discriminate M; [constructor|].
    cbn [map] in M; injection M as M1 M2; constructor; [apply up_spec; [apply Hw; left; reflexivity|exact M1]|apply IH; [exact M2|intros x Hx; apply Hw; right; exact Hx]].
  - intros (b & c & b' & Hb & Hb' & -> & F); assert (M : map up c = txt w) by (clear - F Hw; induction F as [|d a l c H _ IH]; [reflexivity|]; cbn [map]; f_equal; [apply up_spec; [apply Hw; left; reflexivity|exact H]|apply IH; intros x Hx; apply Hw; right; exact Hx]).
    rewrite strip_around; [rewrite M; apply str_txt|apply blank_b; exact Hb| |apply blank_b; exact Hb'].
    assert (W : forall a, In a c -> is_space a = false).
    { intros a Ha; destruct (is_space a) eqn:Es; [|reflexivity]; exfalso; assert (Hu : In (up a) (txt w)) by (rewrite <- M; apply in_map; exact Ha).
      apply Hw in Hu; clear - Hu Es; unfold is_space in Es; cbv zeta in Es; unfold up in Hu; cbv zeta in Hu.
      destruct ((97 <=? nat_of_ascii a)%nat && (nat_of_ascii a <=? 122)%nat) eqn:E; [apply andb_true_iff in E; destruct E as (E1 & E2); apply Nat.leb_le in E1, E2|]; apply orb_true_iff in Es; destruct Es as [Es|Es]; apply andb_true_iff in Es; destruct Es as (S1 & S2); apply Nat.leb_le in S1, S2; lia. }
    intros a r; split; intros ->; apply W; [left; reflexivity|apply in_or_app; right; left; reflexivity].
Qed.
Lemma yesno_caps d : In d (txt "YESNO") -> (65 <= nat_of_ascii d <= 90)%nat.
Proof. intros [<-|[<-|[<-|[<-|[<-|[]]]]]]; vm_compute; lia. Qed.

Section P.
Variable exists_ : path -> bool.
Lemma entry_at base abs l e dir n : spells abs l e -> (if abs then l else p_parts base ++ l) = dir ++ [n] -> n <> [] ->
  let ab := (if abs then true else p_abs base) in let there := fun ps => exists_ {| p_abs := ab; p_parts := ps |} in
  entry_path exists_ base e = Ok {| p_abs := ab; p_parts := dir ++ [if there (dir ++ [n]) then n else if there (dir ++ [stem n ++ txt ".wav"]) then stem n ++ txt ".wav" else if there (dir ++ [stem n ++ txt ".flac"]) then stem n ++ txt ".flac" else n] |}.
Proof.
  intros S E Hn ab there; unfold entry_path; rewrite (to_path_spells _ _ _ S); cbn [p_abs].
  assert (P : (if abs then {| p_abs := abs; p_parts := l |} else join_path base {| p_abs := abs; p_parts := l |}) = {| p_abs := ab; p_parts := dir ++ [n] |}).
  { unfold join_path, ab; cbn [p_parts]; destruct abs; rewrite E; reflexivity. }
  rewrite P; unfold there; destruct (exists_ {| p_abs := ab; p_parts := dir ++ [n] |}); [reflexivity|]; rewrite !with_suffix_at by exact Hn; cbn [bind]; unfold text in *.
  destruct (exists_ {| p_abs := ab; p_parts := dir ++ [stem n ++ txt ".wav"] |}); [reflexivity|]; destruct (exists_ _); reflexivity.
Qed.
Lemma label_at cls ab dir n n' : n <> [] -> (exists s, n' = n ++ s) -> dir <> [] -> label_is cls dir n (label_from_path cls {| p_abs := ab; p_parts := dir ++ [n'] |}).
Proof.
  intros Hn (sx & ->) Hd; assert (Hp : parent_name {| p_abs := ab; p_parts := dir ++ [n ++ sx] |} = last dir []) by (unfold parent_name; cbn [p_parts]; rewrite removelast_last; reflexivity).
  unfold label_is, label_from_path; cbv zeta; rewrite Hp; unfold name_of; cbn [p_parts]; rewrite last_app; split.
  - intros Y; apply (says_spec cls "YESNO" yesno_caps) in Y; rewrite Y; cbn [String.eqb Ascii.eqb Bool.eqb].
    destruct n as [|a n]; [destruct (Hn eq_refl)|]; cbn [app]; destruct (stem_head a (n ++ sx)) as (r & ->); destruct (Ascii.eqb_spec a "1") as [->|Na].
    + split; [reflexivity|intros H; destruct H; exists n; reflexivity].
    + split; [intros (r' & [= -> _]); destruct (Na eq_refl)|reflexivity].
  - intros Y d r ->; rewrite last_app; destruct (String.eqb _ "SPEECHCOMMANDS"); [reflexivity|].
    destruct (String.eqb_spec (str (map up (strip cls))) "YESNO") as [E|_]; [destruct Y; apply (says_spec cls "YESNO" yesno_caps); exact E|reflexivity].
Qed.
End P.
