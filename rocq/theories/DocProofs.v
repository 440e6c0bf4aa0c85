From Coq Require Import String Ascii Lia.
From Verif Require OmlModel OmlProofs.
From Verif Require Import Prelude DocModel DocSpec.
Local Open Scope string_scope.
Local Open Scope list_scope.
Local Notation length := List.length.

Lemma prefix_begins p s : String.prefix p s = true <-> begins p s.
Proof.
  unfold begins. revert s. induction p as [|c p IH]; intros s; [split; [exists s; reflexivity|destruct s; reflexivity]|]. destruct s as [|d s]; cbn [String.prefix]; [split; [discriminate|intros (r & E); discriminate]|]. destruct (ascii_dec c d) as [->|N].
  - rewrite IH. split; intros (r & E); exists r; [rewrite E; reflexivity|injection E as ->; reflexivity].
  - split; [discriminate|]. intros (r & E). injection E as E _. congruence.
Qed.
Lemma marker_none t : ~ contains marker t -> after_marker t = None.
Proof.
  induction t as [|c t IH]; intros H; cbn [after_marker].
  - reflexivity.
  - destruct (String.prefix marker (String c t)) eqn:E; [destruct H; apply prefix_begins in E; destruct E as (r & ->); exists "", r; reflexivity|]. apply IH. intros (a & b & ->). apply H. exists (String c a), b. reflexivity.
Qed.
Lemma substring_all s : String.substring 0 (String.length s) s = s.
Proof. induction s as [|c s IH]; cbn; [reflexivity|]. rewrite IH. reflexivity. Qed.
Lemma marker_front t : after_marker (marker ++ t) = Some t.
Proof.
  assert (P : String.prefix marker (marker ++ t) = true) by (apply prefix_begins; exists t; reflexivity).
  assert (S : String.substring 15 (String.length (marker ++ t) - 15) (marker ++ t) = t) by (unfold marker; cbn [append String.length]; cbn [Nat.sub String.substring]; rewrite Nat.sub_0_r; apply substring_all).
  unfold marker in *. cbn [append] in *. cbn [after_marker]. unfold marker. rewrite P. rewrite S. reflexivity.
Qed.
Lemma not_quote c : c <> "'"%char -> c <> """"%char -> is_quote c = false.
Proof. intros H1 H2. unfold is_quote. apply orb_false_iff. split; apply Ascii.eqb_neq; assumption. Qed.
Lemma quoted x : x <> [] -> plain_end x -> strip_quotes ("'"%char :: x ++ ["'"%char]) = x.
Proof.
  intros N H. unfold strip_quotes.
  assert (D1 : drop_quotes ("'"%char :: x ++ ["'"%char]) = x ++ ["'"%char]).
  { change (drop_quotes ("'"%char :: x ++ ["'"%char])) with (drop_quotes (x ++ ["'"%char])). destruct x as [|c r]; [congruence|]. destruct (H c r (or_introl eq_refl)) as [H1 H2]. cbn [app drop_quotes]. rewrite (not_quote c H1 H2). reflexivity. }
  assert (D2 : drop_quotes ("'"%char :: rev x) = rev x).
  { change (drop_quotes ("'"%char :: rev x)) with (drop_quotes (rev x)). destruct (@exists_last _ x N) as (i & z & E). destruct (H z i (or_intror E)) as [H3 H4]. rewrite E, rev_app_distr. cbn [rev app drop_quotes]. rewrite (not_quote z H3 H4). reflexivity. }
  rewrite D1, rev_app_distr. change (rev ["'"%char] ++ rev x) with ("'"%char :: rev x). rewrite D2. apply rev_involutive.
Qed.
Lemma string_list_app a b : list_ascii_of_string (a ++ b) = list_ascii_of_string a ++ list_ascii_of_string b.
Proof. induction a as [|c a IH]; cbn; [reflexivity|]. f_equal. exact IH. Qed.
Lemma text_missing x : x <> "" -> plain_end (list_ascii_of_string x) -> missing_module None ("No module named '" ++ x ++ "'") = Some x.
Proof.
  intros N H. unfold missing_module. change ("No module named '" ++ x ++ "'")%string with (marker ++ (" '" ++ x ++ "'"))%string. rewrite marker_front. f_equal.
  assert (E : OmlModel.strip (list_ascii_of_string (" '" ++ x ++ "'")) = "'"%char :: list_ascii_of_string x ++ ["'"%char]).
  { cbn [append list_ascii_of_string]. rewrite string_list_app. change (" "%char :: "'"%char :: list_ascii_of_string x ++ list_ascii_of_string "'") with ([" "%char] ++ ("'"%char :: list_ascii_of_string x ++ ["'"%char])). rewrite OmlProofs.strip_left; [|intros c [<-|[]]; reflexivity]. apply OmlProofs.strip_clean. intros a r. split; [intros [= <- _]; reflexivity|]. intros E. change ("'"%char :: list_ascii_of_string x ++ ["'"%char]) with (("'"%char :: list_ascii_of_string x) ++ ["'"%char]) in E. apply app_inj_tail in E. destruct E as [_ <-]. reflexivity. }
  rewrite E, quoted; [apply string_of_list_ascii_of_string| |exact H]. destruct x; [congruence|discriminate].
Qed.
Lemma get_in d k h : NoDup (map fst d) -> (get d k = Some h <-> In (k, h) d).
Proof.
  induction d as [|[k0 v0] d IH]; intros H; cbn [get In]; [split; [discriminate|intros []]|]. cbn [map fst] in H. apply NoDup_cons_iff in H. destruct H as [H1 H2]. destruct (String.eqb_spec k0 k) as [->|N].
  - split; [intros [= ->]; left; reflexivity|]. intros [[= ->]|Hi]; [reflexivity|]. destruct H1. apply (in_map fst) in Hi. exact Hi.
  - rewrite (IH H2). split; [auto|]. intros [[= E]|Hi]; [congruence|exact Hi].
Qed.
Lemma get_none d k : get d k = None <-> ~ In k (map fst d).
Proof. induction d as [|[k0 v0] d IH]; cbn [get map fst In]; [tauto|]. destruct (String.eqb_spec k0 k) as [->|N]; [split; [discriminate|tauto]|]. rewrite IH. tauto. Qed.
Lemma hint_advised n x h : hint_for n (Some x) = h <-> advised n x h.
Proof.
  assert (N1 : NoDup (map fst module_hints)) by (repeat constructor; cbn; intuition discriminate). assert (N2 : NoDup (map fst brick_hints)) by (repeat constructor; cbn; intuition discriminate).
  unfold hint_for. split.
  - destruct (get module_hints x) as [m|] eqn:E; [intros <-; apply advised_module, (get_in _ _ _ N1), E|]. apply get_none in E. destruct (get brick_hints n) as [b|] eqn:Eb; intros <-; [apply advised_brick; [exact E|apply (get_in _ _ _ N2), Eb]|]. apply get_none in Eb. apply advised_none; assumption.
  - intros [m H|b H1 H2|H1 H2].
    + apply (get_in module_hints x m N1) in H. rewrite H. reflexivity.
    + apply (get_none module_hints x) in H1. rewrite H1. apply (get_in brick_hints n b N2), H2.
    + apply (get_none module_hints x) in H1. rewrite H1. apply (get_none brick_hints n), H2.
Qed.
Lemma try_ok load m n s : try_add load m n = inl s <-> settled load (m, n) s.
Proof.
  unfold try_add, internal. split.
  - destruct (load m) as [[]|who msg|msg] eqn:E; try discriminate; [intros [= <-]; apply settled_here, E|]. destruct (missing_module who msg) as [x|] eqn:Em; [|discriminate]. destruct (String.eqb_spec x m) as [|N]; [discriminate|]. cbn [orb]. destruct (String.prefix "modssc" x) eqn:Ep; [discriminate|]. intros [= <-]. eapply settled_away; [exact E|exact Em|exact N| |apply hint_advised; reflexivity]. intros B. apply prefix_begins in B. congruence.
  - intros H. inversion H as [m' n' E|m' n' who msg x h E Em N B A]; subst; rewrite E; [reflexivity|]. rewrite Em. destruct (String.eqb_spec x m) as [|_]; [congruence|]. destruct (String.prefix "modssc" x) eqn:Ep; [destruct B; apply prefix_begins, Ep|]. cbn [orb]. apply hint_advised in A. rewrite A. reflexivity.
Qed.
Lemma register_ok load l ss : register load l = Started ss <-> Forall2 (settled load) l ss.
Proof.
  revert ss. induction l as [|[m n] l IH]; intros ss; cbn [register].
  - split; [intros [= <-]; constructor|intros H; inversion H; reflexivity].
  - split.
    + destruct (try_add load m n) as [s|e] eqn:E; [|discriminate]. destruct (register load l) as [r|] eqn:Er; [|discriminate]. intros [= <-]. constructor; [apply try_ok, E|apply IH; reflexivity].
    + intros H. inversion H as [|p s l' r H1 H2]; subst. apply try_ok in H1. rewrite H1. apply IH in H2. rewrite H2. reflexivity.
Qed.
