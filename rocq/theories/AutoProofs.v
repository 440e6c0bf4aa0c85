From Coq Require Import String Ascii QArith DecimalString DecimalNat Lia ZifyBool ZifyNat.
From Verif Require Import Prelude ListFacts BundleProofs OmlModel OmlSpec OmlProofs TaudModel TaudSpec TaudProofs AutoModel AutoSpec.
Local Open Scope string_scope.
Local Open Scope list_scope.
Local Notation length := List.length.

(* ---- stub *)
Lemma seen_bytes s : seen s (sample_bytes s).
Proof.
  destruct s; cbn; try reflexivity; exists (firstn 1024 data), (skipn 1024 data); split; [symmetry; apply firstn_skipn|split; [|reflexivity]].
  destruct (Nat.le_gt_cases 1024 (length data)); [left; apply firstn_length_le; assumption|right; split; [rewrite firstn_length; lia|apply skipn_all2; lia]].
Qed.
Lemma seen_fun s t : seen s t -> t = sample_bytes s.
Proof.
  destruct s; [auto|auto|]; intros (f & b & -> & H & ->); unfold sample_bytes; do 4 f_equal; destruct H as [H|(H & ->)].
  - rewrite <- H, firstn_app, Nat.sub_diag, firstn_all; cbn; now rewrite app_nil_r.
  - rewrite app_nil_r; symmetry; apply firstn_all2; lia.
Qed.
Lemma txt_app a b : txt (a ++ b)%string = txt a ++ txt b.
Proof. induction a as [|c a IH]; [reflexivity|]; change (c :: txt (a ++ b)%string = c :: (txt a ++ txt b)); now rewrite IH. Qed.
Lemma Forall2_In_r {A B} (P : A -> B -> Prop) l l' y : Forall2 P l l' -> In y l' -> exists x, In x l /\ P x y.
Proof. induction 1 as [|a b l l' H _ IH]; intros I; [destruct I|]; destruct I as [<-|I]; [exists a; split; [left; reflexivity|exact H]|destruct (IH I) as (x & Hx & Hp); exists x; split; [right; exact Hx|exact Hp]]. Qed.
Lemma uint_no_bar u : ~ In "|"%char (txt (NilEmpty.string_of_uint u)).
Proof. induction u; cbn; [intros []|..]; intros [H|H]; try discriminate; contradiction. Qed.
Lemma decimal_inj i j : decimal i = decimal j -> i = j.
Proof.
  unfold decimal; intros H; apply (f_equal str) in H; rewrite !str_txt in H; apply Unsigned.to_uint_inj.
  apply (f_equal NilEmpty.uint_of_string) in H; rewrite !NilEmpty.usu in H; congruence.
Qed.
Lemma bar_split (a b c d : text) : ~ In "|"%char c -> ~ In "|"%char d -> a ++ txt "|" ++ c = b ++ txt "|" ++ d -> a = b /\ c = d.
Proof.
  intros Hc Hd; change (txt "|") with ["|"%char]; cbn [app]; revert b; induction a as [|x a IH]; intros [|y b] H; cbn [app] in H.
  - injection H as H2; split; [reflexivity|exact H2].
  - assert (H2 : c = b ++ "|"%char :: d) by congruence; exfalso; apply Hc; rewrite H2; apply in_or_app; right; left; reflexivity.
  - assert (H2 : a ++ "|"%char :: c = d) by congruence; exfalso; apply Hd; rewrite <- H2; apply in_or_app; right; left; reflexivity.
  - injection H as -> H2; destruct (IH b H2) as (-> & ->); split; reflexivity.
Qed.
Lemma encode_nth draw dim l : forall i k, nth_error (encode_from draw dim i l) k = match nth_error l k with Some s => Some (draw (sample_bytes s ++ txt "|" ++ decimal (i + k)) dim) | None => None end.
Proof. induction l as [|s l IH]; intros i [|k]; try reflexivity; cbn [encode_from nth_error]; [now rewrite Nat.add_0_r|rewrite IH; now replace (S i + k)%nat with (i + S k)%nat by lia]. Qed.
Lemma encode_length draw dim l : forall i, length (encode_from draw dim i l) = length l.
Proof. induction l as [|s l IH]; intros i; [reflexivity|cbn; now rewrite IH]. Qed.

(* ---- names *)
Lemma split_join s : s = slashed (split_on "/" s) /\ (forall t, In t (split_on "/" s) -> ~ In "/"%char t) /\ split_on "/" s <> [].
Proof.
  induction s as [|c s (IH1 & IH2 & IH3)]; [cbn; split; [reflexivity|split; [intros t [<-|[]] []|discriminate]]|].
  cbn [split_on]; destruct (Ascii.eqb_spec c "/") as [->|N].
  - split; [|split; [|discriminate]].
    + destruct (split_on "/" s) as [|p r] eqn:E; [destruct (IH3 eq_refl)|]; cbn [slashed app]; cbn [slashed] in IH1; now rewrite IH1 at 1.
    + intros t [<-|H]; [intros []|exact (IH2 t H)].
  - destruct (split_on "/" s) as [|p r] eqn:E; [destruct (IH3 eq_refl)|]; split; [|split; [|discriminate]].
    + rewrite IH1 at 1; cbn [slashed]; destruct r; reflexivity.
    + intros t [<-|H]; [intros [->|H]; [now apply N|exact (IH2 p (or_introl eq_refl) H)]|exact (IH2 t (or_intror H))].
Qed.
Lemma split_of l : l <> [] -> (forall t, In t l -> ~ In "/"%char t) -> split_on "/" (slashed l) = l.
Proof.
  induction l as [|t l IH]; intros N H; [destruct (N eq_refl)|]; destruct l as [|u l].
  - cbn [slashed]; apply split_none; apply H; left; reflexivity.
  - change (slashed (t :: u :: l)) with (t ++ "/"%char :: slashed (u :: l)); rewrite split_at by (apply H; left; reflexivity); rewrite IH; [reflexivity|discriminate|intros x Hx; apply H; right; exact Hx].
Qed.
Definition keep (t : text) : bool := negb (Nat.eqb (length t) 0 || String.eqb (str t) ".").
Lemma keep_part t : ~ In "/"%char t -> (keep t = true <-> part t).
Proof.
  intros H; split; [|apply part_kept]; unfold keep, part; intros K; apply Bool.negb_true_iff, Bool.orb_false_iff in K; destruct K as (K1 & K2); repeat split; [intros ->; discriminate|intros ->; discriminate|exact H].
Qed.
Lemma keep_not t : keep t = false <-> t = [] \/ t = txt ".".
Proof.
  unfold keep; rewrite Bool.negb_false_iff, Bool.orb_true_iff, Nat.eqb_eq, String.eqb_eq; split; intros [H|H]; [left; now destruct t|right; rewrite <- (txt_str t), H; reflexivity|left; now rewrite H|right; now rewrite H].
Qed.
Lemma last_kept (l : list text) n : n <> [] -> (last (filter keep l) [] = n <-> exists a b, l = a ++ n :: b /\ keep n = true /\ forall t, In t b -> keep t = false).
Proof.
  intros Nn; split.
  - induction l as [|x l IH]; cbn [filter]; [cbn; intros <-; destruct (Nn eq_refl)|]; destruct (keep x) eqn:K.
    + destruct (filter keep l) as [|y f] eqn:F.
      * cbn; intros <-; exists [], l; split; [reflexivity|split; [exact K|]]; intros t Ht; destruct (keep t) eqn:Kt; [|reflexivity]; assert (I : In t (filter keep l)) by (apply filter_In; split; assumption); rewrite F in I; destruct I.
      * change (last (x :: y :: f) []) with (last (y :: f) []); intros H; destruct (IH H) as (a & b & -> & Kn & Hb); exists (x :: a), b; repeat split; assumption.
    + intros H; destruct (IH H) as (a & b & -> & Kn & Hb); exists (x :: a), b; repeat split; assumption.
  - intros (a & b & -> & Kn & Hb); rewrite filter_app; cbn [filter]; rewrite Kn; assert (F : filter keep b = []) by (clear - Hb; induction b as [|t b IH]; [reflexivity|cbn; rewrite (Hb t) by (left; reflexivity); apply IH; intros x Hx; apply Hb; right; exact Hx]); unfold text in *; rewrite F; apply last_app.
Qed.
Lemma name_spec s n : n <> [] -> (name_of (to_path s) = n <-> file_name s n).
Proof.
  intros Nn; unfold name_of, to_path; cbn [p_parts]; fold keep; rewrite (last_kept _ n Nn); split.
  - intros (a & b & E & K & Hb); destruct (split_join s) as (J & H & _); rewrite E in H; exists a, b; repeat split.
    + rewrite slashes_eq; unfold text in *; rewrite <- E; exact J.
    + exact H.
    + exact Nn.
    + intros ->; discriminate K.
    + apply H, in_or_app; right; left; reflexivity.
    + intros t Ht; apply keep_not, Hb, Ht.
  - intros (a & b & -> & H & P & Hb); exists a, b; rewrite slashes_eq, split_of; [|destruct a; discriminate|exact H]; split; [reflexivity|split; [apply keep_part; [apply P|exact P]|intros t Ht; apply keep_not, Hb, Ht]].
Qed.
Lemma last_dot_cut s i : last_dot s = Some i -> exists a b, s = a ++ "."%char :: b /\ length a = i /\ ~ In "."%char b.
Proof.
  revert i; induction s as [|c s IH]; intros i H; [discriminate|]; cbn [last_dot] in H; destruct (last_dot s) as [j|] eqn:E.
  - injection H as <-; destruct (IH j eq_refl) as (a & b & -> & <- & Hb); exists (c :: a), b; repeat split; assumption.
  - destruct (Ascii.eqb_spec c "."); [|discriminate]; injection H as <-; subst; exists [], s; repeat split; clear - E; induction s as [|d s IH]; [intros []|]; cbn [last_dot] in E; destruct (last_dot s); [discriminate|]; destruct (Ascii.eqb_spec d "."); [discriminate|]; intros [->|H]; [now apply n|exact (IH eq_refl H)].
Qed.
Lemma suffix_spec n ext : ~ In "."%char ext -> ext <> [] -> (suffix n = txt "." ++ ext <-> exists s, s <> [] /\ n = s ++ txt "." ++ ext).
Proof.
  intros He Ne; split.
  - unfold suffix; destruct (last_dot n) as [i|] eqn:E; [|discriminate]; destruct ((0 <? i)%nat && (i <? length n - 1)%nat) eqn:B; [|discriminate]; intros H.
    destruct (last_dot_cut _ _ E) as (a & b & -> & <- & Hb); rewrite skipn_app, skipn_all2, Nat.sub_diag in H by lia; cbn in H; injection H as ->; exists a; split; [intros ->; discriminate|reflexivity].
  - intros (s & Ns & ->); unfold suffix; cbn [txt app]; change (txt "." ++ ext) with ("."%char :: ext); rewrite last_dot_some by exact He.
    assert (L : (0 < length s)%nat) by (destruct s; [destruct (Ns eq_refl)|cbn; lia]); assert (L2 : (0 < length ext)%nat) by (destruct ext; [destruct (Ne eq_refl)|cbn; lia]).
    rewrite app_length; cbn [length]; replace ((0 <? length s)%nat && (length s <? length s + S (length ext) - 1)%nat) with true by lia.
    rewrite skipn_app, skipn_all2, Nat.sub_diag by lia; reflexivity.
Qed.
Lemma low_spec a w : (nat_of_ascii w < 65 \/ 90 < nat_of_ascii w)%nat -> (low a = w <-> small_or_capital w a).
Proof.
  intros Hw; unfold low, small_or_capital; pose proof (nat_ascii_bounded a) as Ba; pose proof (nat_ascii_bounded w) as Bw.
  destruct ((65 <=? nat_of_ascii a) && (nat_of_ascii a <=? 90))%nat eqn:B; split.
  - intros <-; right; split; [lia|]; rewrite nat_ascii_embedding; lia.
  - intros [->|(_ & H)]; [lia|]; rewrite <- H; apply ascii_nat_embedding.
  - intros ->; left; reflexivity.
  - intros [->|(H & _)]; [reflexivity|lia].
Qed.
Lemma lower_word (w : text) : (forall c, In c w -> nat_of_ascii c < 65 \/ 90 < nat_of_ascii c)%nat -> forall e, map low e = w <-> Forall2 small_or_capital w e.
Proof.
  induction w as [|c w IH]; intros H e; [destruct e; split; intros X; [constructor|reflexivity|discriminate|inversion X]|].
  destruct e as [|d e]; [split; intros X; [discriminate|inversion X]|]; cbn [map]; split.
  - intros [= H1 H2]; constructor; [apply low_spec; [apply H; left; reflexivity|exact H1]|apply IH; [intros x Hx; apply H; right; exact Hx|exact H2]].
  - intros X; inversion X; subst; f_equal; [apply low_spec; [apply H; left; reflexivity|assumption]|apply IH; [intros x Hx; apply H; right; exact Hx|assumption]].
Qed.
Definition words : list string := ["wav"; "flac"; "mp3"; "ogg"; "m4a"; "aac"].
Lemma words_small w c : In w words -> In c (txt w) -> (nat_of_ascii c < 65 \/ 90 < nat_of_ascii c)%nat /\ c <> "."%char.
Proof. intros [<-|[<-|[<-|[<-|[<-|[<-|[]]]]]]]; cbn; intros H; repeat (destruct H as [<-|H]; [split; [cbn; lia|discriminate]|]); destruct H. Qed.
Definition named (s : text) : bool := existsb (String.eqb (str (map low (suffix (name_of (to_path s)))))) audio_exts.
Lemma low_dot a : low a = "."%char -> a = "."%char.
Proof. intros H; apply low_spec in H; [|cbn; lia]; destruct H as [->|(H & H2)]; [reflexivity|cbn in H2; lia]. Qed.
Lemma named_spec s : named s = true <-> audio_name s.
Proof.
  unfold named; rewrite existsb_exists; split.
  - intros (x & Hx & E); apply String.eqb_eq in E; assert (Hw : exists w, In w words /\ x = ("." ++ w)%string) by (repeat (destruct Hx as [<-|Hx]; [eexists; split; [|reflexivity]; cbn; tauto|]); destruct Hx).
    destruct Hw as (w & Hw & ->); apply (f_equal txt) in E; rewrite txt_str, txt_app in E.
    set (n := name_of (to_path s)) in *; destruct (suffix n) as [|d e] eqn:Es; [discriminate|]; cbn [map] in E; injection E as Ed Ee; apply low_dot in Ed; subst d.
    apply lower_word in Ee; [|intros c Hc; apply (words_small w c Hw Hc)].
    assert (Hdot : ~ In "."%char e).
    { intros I; destruct (Forall2_In_r _ _ _ _ Ee I) as (c & Kc & [Hc|(Hc & _)]); [destruct (words_small w c Hw Kc) as (_ & X); apply X; symmetry; exact Hc|cbn in Hc; lia]. }
    assert (Ne : e <> []) by (intros ->; inversion Ee as [Z|]; destruct Hw as [<-|[<-|[<-|[<-|[<-|[<-|[]]]]]]]; discriminate).
    apply (suffix_spec n e Hdot Ne) in Es; destruct Es as (st & Nst & En); exists n, st, e, w; split; [apply name_spec; [rewrite En; destruct st; discriminate|reflexivity]|split; [exact En|split; [exact Nst|split; [exact Hw|exact Ee]]]].
  - intros (n & st & e & w & Hn & En & Nst & Hw & Ee); exists ("." ++ w)%string; split; [destruct Hw as [<-|[<-|[<-|[<-|[<-|[<-|[]]]]]]]; cbn; tauto|].
    assert (Nn : n <> []) by (rewrite En; destruct st; discriminate); apply (name_spec s n Nn) in Hn; rewrite Hn.
    assert (Hdot : ~ In "."%char e).
    { intros I; destruct (Forall2_In_r _ _ _ _ Ee I) as (c & Kc & [Hc|(Hc & _)]); [destruct (words_small w c Hw Kc) as (_ & X); apply X; symmetry; exact Hc|cbn in Hc; lia]. }
    assert (Ne : e <> []) by (intros ->; inversion Ee as [Z|]; destruct Hw as [<-|[<-|[<-|[<-|[<-|[<-|[]]]]]]]; discriminate).
    rewrite (proj2 (suffix_spec n e Hdot Ne)) by (exists st; split; assumption); apply String.eqb_eq; cbn [txt app map].
    apply (lower_word (txt w)) in Ee; [|intros c Hc; apply (words_small w c Hw Hc)]; change (map low (txt "." ++ e)) with (low "."%char :: map low e); rewrite Ee; rewrite <- (str_txt ("." ++ w)%string), txt_app; reflexivity.
Qed.
Lemma slashes_end l x : l <> [] -> slashes (l ++ [x]) = slashes l ++ txt "/" ++ x.
Proof.
  induction l as [|t l IH]; intros N; [destruct (N eq_refl)|]; destruct l as [|u l]; [reflexivity|].
  change (slashes ((t :: u :: l) ++ [x])) with (t ++ txt "/" ++ slashes ((u :: l) ++ [x])); rewrite IH by discriminate; change (slashes (t :: u :: l)) with (t ++ txt "/" ++ slashes (u :: l)); now rewrite <- !app_assoc.
Qed.
Lemma word_end w e : In w words -> Forall2 small_or_capital (txt w) e -> exists e' c, e = e' ++ [c] /\ ~ In c ["'"%char; """"%char; ")"%char].
Proof.
  intros Hw H; destruct (exists_last (l := e)) as (e' & c & ->); [intros ->; inversion H; destruct Hw as [<-|[<-|[<-|[<-|[<-|[<-|[]]]]]]]; discriminate|].
  exists e', c; split; [reflexivity|]; destruct (Forall2_In_r _ _ _ c H) as (x & Hx & Hp); [apply in_or_app; right; left; reflexivity|].
  intros I; destruct Hp as [->|(Hp & _)].
  - destruct Hw as [<-|[<-|[<-|[<-|[<-|[<-|[]]]]]]]; cbn in Hx; repeat (destruct Hx as [<-|Hx]; [repeat (destruct I as [I|I]; [discriminate|]); destruct I|]); destruct Hx.
  - repeat (destruct I as [<-|I]; [cbn in Hp; lia|]); destruct I.
Qed.
Lemma quoted_not a q : In q ["'"%char; """"%char; ")"%char] -> ~ audio_name (a ++ [q]).
Proof.
  intros Hq (n & st & e & w & (b & f & E & _ & _ & Hf) & -> & Nst & Hw & He); destruct (word_end w e Hw He) as (e' & c & -> & Hc).
  destruct f as [|x f] using rev_ind.
  - destruct b as [|t b]; [cbn [app slashes] in E|rewrite slashes_end in E by discriminate]; rewrite ?app_assoc in E; apply app_inj_tail in E; destruct E as (_ & E); subst; exact (Hc Hq).
  - clear IHf; change (b ++ (st ++ txt "." ++ e' ++ [c]) :: f ++ [x]) with (b ++ ((st ++ txt "." ++ e' ++ [c]) :: f) ++ [x]) in E; rewrite app_assoc, slashes_end in E by (destruct b; discriminate).
    destruct (Hf x) as [->| ->]; [apply in_or_app; right; left; reflexivity| |].
    + rewrite app_nil_r in E; change (txt "/") with ["/"%char] in E; apply app_inj_tail in E; destruct E as (_ & ->); repeat (destruct Hq as [Hq|Hq]; [discriminate|]); destruct Hq.
    + change (txt ".") with ["."%char] in E; rewrite app_assoc in E; apply app_inj_tail in E; destruct E as (_ & ->); repeat (destruct Hq as [Hq|Hq]; [discriminate|]); destruct Hq.
Qed.

Section Choice.
Context {V : Type}.
Variable show_bytes : text -> text.
Hypothesis Hq : quoted show_bytes.
Lemma path_spec i : is_audio_path show_bytes i = true <-> exists s, (i = IText s \/ i = IPath s) /\ audio_name s.
Proof.
  destruct i as [s|b|s|d|]; cbn [is_audio_path].
  - fold (named s); rewrite named_spec; split; [intros H; exists s; split; [left; reflexivity|exact H]|intros (x & [E|E] & A); [injection E as ->; exact A|discriminate]].
  - fold (named (show_bytes b)); destruct (Hq b) as (a & q & E & I); split; [intros H; apply named_spec in H; rewrite E in H; destruct (quoted_not a q I H)|intros (x & [H|H] & _); discriminate].
  - fold (named s); rewrite named_spec; split; [intros H; exists s; split; [right; reflexivity|exact H]|intros (x & [E|E] & A); [discriminate|injection E as ->; exact A]].
  - split; [discriminate|intros (x & [H|H] & _); discriminate].
  - split; [discriminate|intros (x & [H|H] & _); discriminate].
Qed.
Lemma first_spec (X : input V) i : first_item V X = Some i <-> first X i.
Proof.
  destruct X as [l c|a|c]; cbn; [| |split; [discriminate|intros []]]; split.
  - destruct l; [discriminate|intros [= ->]; eexists; reflexivity].
  - intros (r & ->); reflexivity.
  - destruct (a_items V a); [discriminate|intros [= ->]; eexists; reflexivity].
  - intros (r & ->); reflexivity.
Qed.
Lemma text_spec (X : input V) : sound X -> (looks_like_text V show_bytes X = true <-> says_text X).
Proof.
  intros (So & _); unfold looks_like_text, says_text; destruct (first_item V X) as [i|] eqn:F; [pose proof (proj1 (first_spec X i) F) as Fi|].
  - assert (U : forall j, first X j -> j = i) by (intros j Hj; apply first_spec in Hj; congruence).
    destruct i as [s|b|s|d|].
    + rewrite Bool.negb_true_iff; split.
      * intros H; left; exists s; split; [exact Fi|intros A; assert (T : is_audio_path show_bytes (IText s) = true) by (apply path_spec; exists s; split; [left; reflexivity|exact A]); congruence].
      * intros [(s' & F' & A)|(a & b & _ & _ & F')]; [|discriminate (U _ F')]; injection (U _ F') as ->; destruct (is_audio_path show_bytes (IText s)) eqn:P; [|reflexivity]; apply path_spec in P; destruct P as (x & [E|E] & P'); [injection E as <-; destruct (A P')|discriminate].
    + destruct X as [l c|a|c]; [split; [discriminate|intros [(s' & F' & _)|(a & b' & E & _)]; [discriminate (U _ F')|discriminate]]| |split; [discriminate|intros [(s' & F' & _)|(a & b' & E & _)]; [discriminate (U _ F')|discriminate]]].
      destruct Fi as (r & Er); pose proof (So a (IBytes b) eq_refl) as Sa; rewrite Er in Sa; specialize (Sa (or_introl eq_refl)); destruct (a_kind V a) eqn:K.
      * destruct Sa as (? & Sa); discriminate.
      * rewrite Er; split; [intros _; right; exists a, b; split; [reflexivity|split; [exact K|exists r; exact Er]]|intros _].
        destruct (is_audio_path show_bytes (IBytes b)) eqn:P; [|reflexivity]; apply path_spec in P; destruct P as (x & [E|E] & _); discriminate.
      * discriminate.
      * split; [discriminate|intros [(s' & F' & _)|(a' & b' & [= <-] & K' & _)]; [discriminate (U _ F')|congruence]].
    + destruct X as [l c|a|c]; [split; [discriminate|intros [(s' & F' & _)|(a & b' & E & _)]; [discriminate (U _ F')|discriminate]]| |destruct Fi].
      destruct Fi as (r & Er); pose proof (So a _ eq_refl ltac:(rewrite Er; left; reflexivity)) as Sa; destruct (a_kind V a) eqn:K; try (destruct Sa as (? & Sa); discriminate); [discriminate|]; split; [discriminate|intros [(s' & F' & _)|(a' & b' & [= <-] & K' & _)]; [discriminate (U _ F')|congruence]].
    + destruct X as [l c|a|c]; [split; [discriminate|intros [(s' & F' & _)|(a & b' & E & _)]; [discriminate (U _ F')|discriminate]]| |destruct Fi].
      destruct Fi as (r & Er); pose proof (So a _ eq_refl ltac:(rewrite Er; left; reflexivity)) as Sa; destruct (a_kind V a) eqn:K; try (destruct Sa as (? & Sa); discriminate); [discriminate|]; split; [discriminate|intros [(s' & F' & _)|(a' & b' & [= <-] & K' & _)]; [discriminate (U _ F')|congruence]].
    + destruct X as [l c|a|c]; [split; [discriminate|intros [(s' & F' & _)|(a & b' & E & _)]; [discriminate (U _ F')|discriminate]]| |destruct Fi].
      destruct Fi as (r & Er); pose proof (So a _ eq_refl ltac:(rewrite Er; left; reflexivity)) as Sa; destruct (a_kind V a) eqn:K; try (destruct Sa as (? & Sa); discriminate); split; try discriminate; intros [(s' & F' & _)|(a' & b' & [= <-] & K' & _)]; try discriminate (U _ F'); congruence.
  - assert (U : forall j, ~ first X j) by (intros j Hj; apply first_spec in Hj; congruence).
    split; [|intros [(s & F' & _)|(a & b & _ & _ & F')]; destruct (U _ F')].
    destruct X as [l c|a|c]; try discriminate; cbn in F; destruct (a_items V a); [destruct (a_kind V a); discriminate|discriminate].
Qed.
Lemma images_spec (X : input V) : looks_like_images V X = true <-> pictures X.
Proof.
  unfold looks_like_images, pictures; destruct X as [l c|a|c]; [split; [discriminate|intros (? & ? & _); discriminate]| |split; [discriminate|intros (? & ? & _); discriminate]].
  rewrite Bool.orb_true_iff, !Nat.eqb_eq; split; [intros H; exists a; split; [reflexivity|exact H]|intros (b & [= <-] & H); exact H].
Qed.
Lemma audio_spec (X : input V) : sound X -> exists b, looks_like_audio V show_bytes X = Ok b /\ (b = true <-> says_audio X).
Proof.
  intros (_ & So); unfold looks_like_audio, says_audio; destruct (first_item V X) as [i|] eqn:F.
  - pose proof (proj1 (first_spec X i) F) as Fi; assert (U : forall j, first X j -> j = i) by (intros j Hj; apply first_spec in Hj; congruence).
    destruct (is_audio_path show_bytes i) eqn:P.
    + exists true; split; [reflexivity|split; [intros _|reflexivity]]; apply path_spec in P; destruct P as (s & [-> | ->] & A); left; exists s; split; [left; exact Fi|exact A|right; exact Fi|exact A].
    + assert (NA : ~ exists s, (first X (IText s) \/ first X (IPath s)) /\ audio_name s).
      { intros (s & H & A); assert (T : is_audio_path show_bytes i = true); [|congruence]; apply path_spec; exists s; split; [destruct H as [H|H]; [left|right]; symmetry; exact (U _ H)|exact A]. }
      destruct i as [s|b|s|d|]; try solve [exists false; split; [reflexivity|split; [discriminate|intros [H|[H|H]]; [destruct (NA H)|discriminate (U _ H)|discriminate (U _ H)]]]].
      destruct d as [n|x]; [|destruct (So x Fi)]; eexists; split; [reflexivity|]; rewrite Bool.orb_true_iff, !Nat.eqb_eq; split.
      * intros [-> | ->]; [right; left; exact Fi|right; right; exact Fi].
      * intros [H|[H|H]]; [destruct (NA H)|injection (U _ H) as <-; left; reflexivity|injection (U _ H) as <-; right; reflexivity].
  - assert (U : forall j, ~ first X j) by (intros j Hj; apply first_spec in Hj; congruence).
    exists false; split; [reflexivity|split; [discriminate|]]; intros [(s & [H|H] & _)|[H|H]]; destruct (U _ H).
Qed.
Lemma choose_spec (X : input V) : sound X -> exists o, choose V show_bytes X = Ok o /\ forall o', goes X o' <-> o' = o.
Proof.
  intros So; unfold choose; pose proof (text_spec X So) as T; pose proof (images_spec X) as I; destruct (audio_spec X So) as (b & -> & A).
  destruct (looks_like_text V show_bytes X).
  { exists (Some KText); split; [reflexivity|]; assert (Y : says_text X) by (apply T; reflexivity); intros o; split; [intros H; inversion H; subst; [reflexivity|contradiction..]|intros ->; now constructor]. }
  assert (NT : ~ says_text X) by (intros Y; apply T in Y; discriminate); destruct (looks_like_images V X).
  { exists (Some KVision); split; [reflexivity|]; assert (Y : pictures X) by (apply I; reflexivity); intros o; split; [intros H; inversion H; subst; [contradiction|reflexivity|contradiction..]|intros ->; now constructor]. }
  assert (NI : ~ pictures X) by (intros Y; apply I in Y; discriminate); cbn [bind]; destruct b.
  { exists (Some KAudio); split; [reflexivity|]; assert (Y : says_audio X) by (apply A; reflexivity); intros o; split; [intros H; inversion H; subst; [contradiction|contradiction|reflexivity|contradiction]|intros ->; now constructor]. }
  assert (NA : ~ says_audio X) by (intros Y; apply A in Y; discriminate); exists None; split; [reflexivity|]; intros o; split; [intros H; inversion H; subst; [contradiction..|reflexivity]|intros ->; now constructor].
Qed.
End Choice.
Lemma becomes_spec {V} (X : input V) a : to_array V X = Ok a <-> becomes X a.
Proof.
  destruct X as [l c|b|c]; cbn.
  - destruct l as [|i l]; split; [intros [= <-]; split; [reflexivity|intros N; destruct (N eq_refl)]|intros (H & _); f_equal; symmetry; now apply H|intros ->; split; [discriminate|reflexivity]|intros (_ & H); apply H; discriminate].
  - split; [intros [= ->]; reflexivity|intros ->; reflexivity].
  - reflexivity.
Qed.
Lemma cast_spec {V} (f : dtype -> V -> result Q) k l q : cast V f k l = Ok q <-> Forall2 (fun v x => f k v = Ok x) l q.
Proof.
  revert q; induction l as [|v l IH]; intros q; cbn [cast]; [split; [intros [= <-]; constructor|intros H; inversion H; reflexivity]|].
  destruct (f k v) as [x|e] eqn:E; cbn [bind]; [|split; [discriminate|intros H; inversion H; congruence]].
  destruct (cast V f k l) as [qs|e]; cbn [bind]; split.
  - intros [= <-]; constructor; [exact E|apply IH; reflexivity].
  - intros H; inversion H; subst; assert (R : Ok qs = Ok l') by (apply IH; assumption); congruence.
  - discriminate.
  - intros H; inversion H; subst; assert (R : Err e = Ok l') by (apply IH; assumption); discriminate.
Qed.
