From Coq Require Import String Ascii Lia.
From Verif Require Import Prelude PyValue RegModel BundleProofs OmlModel OmlSpec OmlProofs HfModel HfSpec.
Local Open Scope string_scope.
Local Open Scope list_scope.
Local Notation length := List.length.

Lemma cut_slash_at x y : ~ In "/"%char x -> cut_slash (x ++ "/"%char :: y) = Some (x, y).
Proof.
  induction x as [|a x IH]; intros H; [reflexivity|]; cbn [app cut_slash]; destruct (Ascii.eqb_spec a "/") as [->|N]; [exfalso; apply H; left; reflexivity|].
  rewrite IH by (intros I; apply H; right; exact I); reflexivity.
Qed.
Lemma cut_slash_none x : ~ In "/"%char x -> cut_slash x = None.
Proof.
  induction x as [|a x IH]; intros H; [reflexivity|]; cbn [cut_slash]; destruct (Ascii.eqb_spec a "/") as [->|N]; [exfalso; apply H; left; reflexivity|].
  rewrite IH by (intros I; apply H; right; exact I); reflexivity.
Qed.
Lemma cut_slash_some s k v : cut_slash s = Some (k, v) -> ~ In "/"%char k.
Proof.
  revert k v; induction s as [|a s IH]; intros k v H; [discriminate|]; cbn [cut_slash] in H; destruct (Ascii.eqb_spec a "/") as [->|N]; [injection H as <- <-; intros []|].
  destruct (cut_slash s) as [(k', v')|]; [|discriminate]; injection H as <- <-; intros [->|I]; [now apply N|exact (IH k' v' eq_refl I)].
Qed.
Lemma cut_slash_nowhere s : cut_slash s = None -> ~ In "/"%char s.
Proof.
  induction s as [|a s IH]; intros H; [intros []|]; cbn [cut_slash] in H; destruct (Ascii.eqb_spec a "/") as [->|N]; [discriminate|].
  destruct (cut_slash s) as [(k', v')|]; [discriminate|]; intros [->|I]; [now apply N|exact (IH eq_refl I)].
Qed.
Lemma strip_in c s : In c (strip s) -> In c s.
Proof. unfold strip, rstrip; intros H; apply in_rev, lstrip_in, in_rev, lstrip_in in H; exact H. Qed.
Lemma slash_ink : is_space "/"%char = false. Proof. reflexivity. Qed.
Lemma blank_slash b : blankb b -> ~ In "/"%char b.
Proof. intros H I; specialize (H _ I); discriminate. Qed.
(* strip around a slash *)
Lemma strip_slash x y : exists x' y', strip (x ++ "/"%char :: y) = x' ++ "/"%char :: y' /\ strip x' = strip x /\ strip y' = strip y /\ (~ In "/"%char x -> ~ In "/"%char x').
Proof.
  exists (lstrip x); destruct (rstrip_split ("/"%char :: y)) as (b & Hb & E).
  assert (R : exists y', rstrip ("/"%char :: y) = "/"%char :: y' /\ strip y' = strip y).
  { destruct (rstrip ("/"%char :: y)) as [|a y'] eqn:R.
    - exfalso; cbn [app] in E; rewrite <- E in Hb; specialize (Hb "/"%char (or_introl eq_refl)); discriminate.
    - cbn [app] in E; injection E as <- E; exists y'; split; [reflexivity|]; rewrite E; symmetry; apply strip_right; exact Hb. }
  destruct R as (y' & R & Ry); exists y'; split; [|split; [apply strip_lstrip|split; [exact Ry|intros H I; apply H, lstrip_in, I]]].
  unfold strip at 1; destruct (lstrip_split x) as (b0 & Hb0 & Ex & Hx).
  assert (L : lstrip (x ++ "/"%char :: y) = lstrip x ++ "/"%char :: y).
  { rewrite Ex at 1; rewrite <- app_assoc, lstrip_blank by exact Hb0; destruct Hx as [-> | (a & r & -> & Ha)]; [apply lstrip_head; reflexivity|cbn [app]; rewrite lstrip_head by exact Ha; reflexivity]. }
  rewrite L, rstrip_app by (exists "/"%char; split; [left; reflexivity|reflexivity]); rewrite R; reflexivity.
Qed.
Lemma split_names ref name config : names ref name config -> split_ref ref = (name, config).
Proof.
  intros (Hn & Ns & H); apply clean_b in Hn; unfold split_ref; destruct config as [c|].
  - destruct H as (Nc & Hc & b1 & b2 & b3 & b4 & B1 & B2 & B3 & B4 & ->); apply clean_b in Hc; apply blank_b in B1, B2, B3, B4.
    replace (b1 ++ name ++ b2 ++ "/"%char :: b3 ++ c ++ b4) with ((b1 ++ name ++ b2) ++ "/"%char :: b3 ++ c ++ b4) by (rewrite <- !app_assoc; reflexivity).
    destruct (strip_slash (b1 ++ name ++ b2) (b3 ++ c ++ b4)) as (x & y & E & Ex & Ey & Nx); rewrite E, cut_slash_at.
    + rewrite Ex, Ey, !strip_around by assumption; destruct c; [destruct (Nc eq_refl)|reflexivity].
    + apply Nx; intros I; apply in_app_or in I; destruct I as [I|I]; [exact (blank_slash _ B1 I)|]; apply in_app_or in I; destruct I as [I|I]; [exact (Ns I)|exact (blank_slash _ B2 I)].
  - destruct H as (b & b' & B & B' & [->|(b2 & b3 & B2 & B3 & ->)]); apply blank_b in B, B'.
    + rewrite strip_around by assumption; rewrite cut_slash_none by exact Ns; reflexivity.
    + apply blank_b in B2, B3; replace (b ++ name ++ b' ++ "/"%char :: b2 ++ b3) with ((b ++ name ++ b') ++ "/"%char :: b2 ++ b3) by (rewrite <- !app_assoc; reflexivity).
      destruct (strip_slash (b ++ name ++ b') (b2 ++ b3)) as (x & y & E & Ex & Ey & Nx); rewrite E, cut_slash_at.
      * rewrite Ex, Ey, strip_around by assumption; replace (strip (b2 ++ b3)) with (@nil ascii); [reflexivity|]; symmetry; rewrite strip_left by exact B2; unfold strip; rewrite lstrip_all by exact B3; reflexivity.
      * apply Nx; intros I; apply in_app_or in I; destruct I as [I|I]; [exact (blank_slash _ B I)|]; apply in_app_or in I; destruct I as [I|I]; [exact (Ns I)|exact (blank_slash _ B' I)].
Qed.
Lemma split_no_slash ref : ~ In "/"%char (fst (split_ref ref)).
Proof.
  unfold split_ref; destruct (cut_slash (strip ref)) as [(k, v)|] eqn:E; cbn [fst]; [intros I; apply strip_in in I; exact (cut_slash_some _ _ _ E I)|exact (cut_slash_nowhere _ E)].
Qed.
Lemma look_spec {B} (l : list (string * B)) k v : look l k = Some v <-> has_column l k v.
Proof.
  induction l as [|(k', v') l IH]; cbn [look]; [split; [discriminate|intros (a & b & E & _); destruct a; discriminate]|].
  destruct (String.eqb_spec k' k) as [->|N].
  - split; [intros [= ->]; exists [], l; split; [reflexivity|intros []]|]; intros (a & b & E & H); destruct a as [|x a]; [injection E as -> _; reflexivity|injection E as <- _; exfalso; apply H; left; reflexivity].
  - rewrite IH; split; intros (a & b & E & H).
    + exists ((k', v') :: a), b; split; [rewrite E; reflexivity|intros [X|X]; [exact (N X)|exact (H X)]].
    + destruct a as [|x a]; [injection E as -> _ _; destruct (N eq_refl)|injection E as <- ->; exists a, b; split; [reflexivity|intros X; apply H; right; exact X]].
Qed.
Lemma extract_spec {A} (ds : @source A) n t l r : has_split ds n r -> forall x y, (extract_split ds n t l = Ok (x, y) <-> holds r t l x y).
Proof.
  intros Hs x y; assert (E : match ds with Splits m => column m n | Single r0 => Ok r0 end = Ok r) by (destruct ds as [m|r0]; [unfold column; cbn in Hs; rewrite (proj2 (look_spec m n r) Hs); reflexivity|destruct Hs as (-> & _); reflexivity]).
  unfold extract_split, holds; rewrite E; cbn [bind]; rewrite <- !look_spec; unfold column; destruct (look (r_samples r) t) as [x'|]; cbn [bind]; [|split; [discriminate|intros (H & _); discriminate]].
  destruct (look (r_labels r) l) as [y'|]; cbn [bind]; [split; [intros [= -> ->]; split; reflexivity|intros ([= ->] & [= ->]); reflexivity]|split; [discriminate|intros (_ & H); discriminate]].
Qed.
Lemma split_none_of {A} (l : list (string * @rows A)) n : look l n = None -> ~ exists r, has_split (Splits l) n r.
Proof. intros H (r & Hr); apply look_spec in Hr; congruence. Qed.
Lemma String_app_nil s : (s ++ "")%string = s.
Proof. induction s as [|c s IH]; [reflexivity|cbn; now rewrite IH]. Qed.
Lemma str_slash a b : str (a ++ "/"%char :: b) = (str a ++ "/" ++ str b)%string.
Proof. induction a as [|c a IH]; [reflexivity|]; change (String c (str (a ++ "/"%char :: b)) = String c (str a ++ "/" ++ str b)%string); now rewrite IH. Qed.
Lemma column_err {B} (l : list (string * B)) k : (~ exists v, has_column l k v) -> column l k = Err KeyError.
Proof. intros H; unfold column; destruct (look l k) as [v|] eqn:E; [|reflexivity]; exfalso; apply H; exists v; apply look_spec; exact E. Qed.
Lemma extract_error {A} (ds : @source A) n t l e : extract_split ds n t l = Err e -> e = KeyError.
Proof.
  unfold extract_split, column; destruct ds as [m|r0]; [destruct (look m n) as [r0|]; cbn [bind]; [|congruence]|cbn [bind]];
    (destruct (look (r_samples r0) t); cbn [bind]; [|congruence]; destruct (look (r_labels r0) l); cbn [bind]; congruence).
Qed.
Lemma extract_missing {A} (ds : @source A) n t l : n = "train" -> (~ exists r x y, has_split ds n r /\ holds r t l x y) -> extract_split ds n t l = Err KeyError.
Proof.
  intros En H; destruct (extract_split ds n t l) as [(x, y)|e] eqn:E; [|rewrite (extract_error _ _ _ _ _ E); reflexivity].
  exfalso; apply H; assert (S : exists r, has_split ds n r).
  { destruct ds as [m|r0]; [|exists r0; split; [reflexivity|exact En]]; unfold extract_split, column in E; destruct (look m n) as [r|] eqn:L; [exists r; apply look_spec; exact L|discriminate]. }
  destruct S as (r & Hr); exists r, x, y; split; [exact Hr|apply (extract_spec ds n t l r Hr); exact E].
Qed.
Lemma official_none {A} (ds : @source A) t l p : test_split ds p None -> official_test ds t l p = Ok None.
Proof.
  unfold test_split, official_test; intros (Ha & Hb); destruct ds as [m|r0]; [|reflexivity].
  assert (L : forall n, (~ exists r, has_split (Splits m) n r) -> look m n = None) by (intros n H; destruct (look m n) as [r|] eqn:L; [exfalso; apply H; exists r; apply look_spec; exact L|reflexivity]).
  apply L in Ha, Hb; destruct p; cbn [first_present]; cbn in Ha, Hb; rewrite Ha, Hb; reflexivity.
Qed.
Lemma official_at {A} (ds : @source A) t l p r : test_split ds p (Some r) -> exists n, has_split ds n r /\ official_test ds t l p = match extract_split ds n t l with Ok s => Ok (Some s) | Err e => Err e end.
Proof.
  unfold test_split, official_test; intros H; destruct ds as [m|r0]; [|exfalso; destruct H as [(_ & H)|(_ & _ & H)]; destruct p; discriminate].
  assert (L : forall n, (~ exists r, has_split (Splits m) n r) -> look m n = None) by (intros n H'; destruct (look m n) as [r'|] eqn:L; [exfalso; apply H'; exists r'; apply look_spec; exact L|reflexivity]).
  destruct H as [H|(Na & H)].
  - eexists; split; [exact H|]; pose proof (proj2 (look_spec m _ r) H) as E; destruct p; cbn [first_present]; cbn in E; rewrite E; destruct (extract_split _ _ _ _); reflexivity.
  - eexists; split; [exact H|]; pose proof (proj2 (look_spec m _ r) H) as E; apply L in Na; destruct p; cbn [first_present]; cbn in E, Na; rewrite Na, E; destruct (extract_split _ _ _ _); reflexivity.
Qed.
Lemma official_some {A} (ds : @source A) t l p r x y : test_split ds p (Some r) -> holds r t l x y -> official_test ds t l p = Ok (Some (x, y)).
Proof. intros H Hh; destruct (official_at ds t l p r H) as (n & Hn & ->); rewrite (proj2 (extract_spec ds n t l r Hn x y) Hh); reflexivity. Qed.
Lemma official_missing {A} (ds : @source A) t l p r : test_split ds p (Some r) -> (~ exists x y, holds r t l x y) -> official_test ds t l p = Err KeyError.
Proof.
  intros H Hh; destruct (official_at ds t l p r H) as (n & Hn & ->); destruct (extract_split ds n t l) as [(x, y)|e] eqn:E; [exfalso; apply Hh; exists x, y; apply (extract_spec ds n t l r Hn); exact E|rewrite (extract_error _ _ _ _ _ E); reflexivity].
Qed.
Definition cleanc (t : text) : bool := match t with [] => true | a :: _ => negb (is_space a) && negb (is_space (last t a)) end.
Lemma cleanc_clean t : cleanc t = true -> clean t.
Proof.
  intros H a r; split; intros ->.
  - cbn in H; apply andb_prop in H; apply not_space_spec, Bool.negb_true_iff, H.
  - unfold cleanc in H; destruct (r ++ [a]) as [|b s] eqn:E; [destruct r; discriminate|]; apply andb_prop in H; destruct H as (_ & H); apply not_space_spec, Bool.negb_true_iff; rewrite <- E in H; rewrite last_last in H; exact H.
Qed.
