From Coq Require Import String Ascii Lia.
From Verif Require Import Prelude PyValue RegModel OmlModel OmlSpec OmlProofs HfModel HfSpec HfProofs TfdModel TfdSpec.
Local Open Scope string_scope.
Local Open Scope list_scope.
Local Notation length := List.length.

Lemma strip_strip s : strip (strip s) = strip s. Proof. unfold strip at 2; rewrite strip_rstrip; apply strip_lstrip. Qed.
Lemma split_same ref : split_name_version ref = split_ref ref. Proof. reflexivity. Qed.
Lemma split_stripped ref name v : split_name_version ref = (name, v) -> strip name = name /\ ~ In "/"%char name /\ (forall c, v = Some c -> strip c = c /\ c <> []).
Proof.
  intros E. rewrite split_same in E. assert (N := split_no_slash ref). rewrite E in N. cbn [fst] in N. unfold split_ref in E. destruct (cut_slash (strip ref)) as [[k w]|].
  - destruct (strip w) as [|a s] eqn:Ew; injection E as <- <-; (split; [apply strip_strip|split; [exact N|]]); intros c; [discriminate|intros [= <-]]. rewrite <- Ew. split; [apply strip_strip|rewrite Ew; discriminate].
  - injection E as <- <-. split; [apply strip_strip|]. split; [exact N|discriminate].
Qed.
Lemma split_again name v : strip name = name -> ~ In "/"%char name -> (forall c, v = Some c -> strip c = c /\ c <> []) -> split_name_version (match v with Some c => name ++ "/"%char :: c | None => name end) = (name, v).
Proof.
  intros Hn Ns Hv. rewrite split_same. destruct v as [c|]; unfold split_ref.
  - destruct (Hv c eq_refl) as [Hc Nc]. destruct (strip_slash name c) as (x & y & Es & Ex & Ey & Nx). rewrite Es, cut_slash_at by (apply Nx; exact Ns). rewrite Ex, Ey, Hn, Hc. destruct c; [congruence|reflexivity].
  - rewrite Hn, (cut_slash_none _ Ns). reflexivity.
Qed.
Section M.
Context {A : Type}.
Lemma materialize_pairs (items : list (@item A)) : forall x y, pairs items x y -> materialize items = Ok (map Val x, map Val y).
Proof.
  induction items as [|i items IH]; intros x y (Hx & Hy & H).
  - destruct x; [|discriminate]. destruct y; [reflexivity|discriminate].
  - destruct x as [|a x]; [discriminate|]. destruct y as [|b y]; [discriminate|]. destruct (H 0%nat ltac:(cbn; lia)) as (a' & b' & [= <-] & [= <-] & [= ->]). cbn [materialize unpack bind]. rewrite (IH x y); [reflexivity|].
    split; [cbn in Hx; lia|]. split; [cbn in Hy; lia|]. intros k Hk. exact (H (S k) ltac:(cbn; lia)).
Qed.
Lemma unpack_ok (i : @item A) : (exists p, unpack i = Ok p) <-> splits_in_two i.
Proof.
  destruct i as [[|a [|b [|c l]]]|[|[k a] [|[k' b] [|[k'' c] l]]]]; cbn; split; try (intros [p H]; discriminate); try lia; eauto.
Qed.
Lemma materialize_can (items : list (@item A)) : (exists p, materialize items = Ok p) <-> forall i, In i items -> splits_in_two i.
Proof.
  induction items as [|i items IH]; cbn [materialize]; [split; [intros _ i []|eauto]|]. split.
  - destruct (unpack i) as [[x y]|e] eqn:E; cbn [bind]; [|intros [p H]; discriminate]. destruct (materialize items) as [[X Y]|e]; cbn [bind]; [|intros [p H]; discriminate]. intros _ j [<-|Hj]; [apply unpack_ok; eauto|]. apply (proj1 IH); eauto.
  - intros H. destruct (proj2 (unpack_ok i) (H i (or_introl eq_refl))) as [[x y] ->]. destruct (proj2 IH (fun j Hj => H j (or_intror Hj))) as [[X Y] ->]. cbn [bind]. eauto.
Qed.
Lemma materialize_err (items : list (@item A)) e : materialize items = Err e -> e = ValueError.
Proof.
  induction items as [|i items IH]; cbn [materialize]; [discriminate|]. destruct (unpack i) as [[x y]|e'] eqn:E; cbn [bind].
  - destruct (materialize items) as [[X Y]|e']; cbn [bind]; [discriminate|]. intros [= <-]. apply IH. reflexivity.
  - intros [= <-]. revert E. destruct i as [[|a [|b [|c l]]]|[|[k a] [|[k' b] [|[k'' c] l]]]]; cbn; congruence.
Qed.
End M.
