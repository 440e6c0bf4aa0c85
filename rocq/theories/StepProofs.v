(* Lemmas for the preprocessing steps of StepModel. *)
From Coq Require Import String QArith ZifyBool ZifyNat.
From Verif Require Import Prelude ListFacts TokModel TokSpec TokProofs StepModel StepSpec.
Local Open Scope Z_scope.
Local Open Scope list_scope.
Local Notation length := List.length.

(* ---- one-hot labels ---- *)
Lemma filter_all_false {A} (f : A -> bool) l : (forall x, In x l -> f x = false) -> filter f l = [].
Proof.
  induction l as [|x l IH]; intros H; [reflexivity|]. cbn [filter]. rewrite (H x) by now left.
  apply IH. intros y Hy. apply H. now right.
Qed.
Lemma searchsorted_pos classes v k :
  StronglySorted Z.lt classes -> In v classes ->
  (searchsorted classes v = k <-> nth_error classes k = Some v).
Proof.
  revert k. induction classes as [|c cs IH]; intros k S I; [destruct I|].
  inversion S as [|? ? S' F]; subst. rewrite Forall_forall in F. unfold searchsorted in *. cbn [filter].
  destruct (Z.ltb_spec c v) as [L|L].
  - cbn [length]. destruct I as [->|I]; [lia|]. destruct k as [|k].
    + cbn. split; [discriminate|]. intros [= ->]. lia.
    + cbn [nth_error]. rewrite <- (IH k S' I). split; [intros [= <-]; reflexivity|intros <-; reflexivity].
  - destruct I as [->|I]; [|specialize (F v I); lia].
    rewrite filter_all_false by (intros y Hy; specialize (F y Hy); lia). cbn [length].
    destruct k as [|k]; cbn [nth_error]; [tauto|]. split; [discriminate|].
    intros H. apply nth_error_In in H. specialize (F v H). lia.
Qed.
Lemma searchsorted_bound classes v : StronglySorted Z.lt classes -> In v classes -> (searchsorted classes v < length classes)%nat.
Proof.
  intros S I. pose proof (proj1 (searchsorted_pos classes v _ S I) eq_refl) as H.
  apply nth_error_Some. congruence.
Qed.
Lemma update_nth {A} (l : list A) i f k :
  nth_error (update l i f) k = if Nat.eqb i k then option_map f (nth_error l k) else nth_error l k.
Proof.
  revert i k. induction l as [|x l IH]; intros i k; cbn [update].
  - destruct k; destruct (Nat.eqb i _); reflexivity.
  - destruct i as [|i], k as [|k]; cbn [nth_error Nat.eqb]; try reflexivity. apply IH.
Qed.
Lemma update_len {A} (l : list A) i f : length (update l i f) = length l.
Proof. revert i. induction l as [|x l IH]; intros i; [reflexivity|]. destruct i; cbn; [reflexivity|now rewrite IH]. Qed.
Lemma nth_error_repeat_some {A} (x : A) n k y : nth_error (repeat x n) k = Some y -> y = x /\ (k < n)%nat.
Proof.
  intros H. split; [apply nth_error_In in H; now apply repeat_spec in H|].
  rewrite <- (repeat_length x n). apply nth_error_Some. congruence.
Qed.

(* ---- columns ---- *)
Lemma map_result_ok {A B} (f : A -> result B) l ys :
  map_result f l = Ok ys <-> Forall2 (fun x y => f x = Ok y) l ys.
Proof.
  revert ys. induction l as [|x l IH]; intros ys; cbn [map_result].
  - split; [intros [= <-]; constructor|intros H; inversion H; reflexivity].
  - destruct (f x) as [y|e] eqn:E; cbn [bind].
    + destruct (map_result f l) as [zs|e] eqn:R; cbn [bind]; split.
      * intros [= <-]. constructor; [exact E|now apply IH].
      * intros H. inversion H as [|? y' ? zs' E' F]; subst. apply IH in F. congruence.
      * discriminate.
      * intros H. inversion H as [|? y' ? zs' E' F]; subst. apply IH in F. discriminate.
    + split; [discriminate|]. intros H. inversion H; subst. congruence.
Qed.
Lemma map_result_total {A B} (f : A -> result B) l :
  (exists ys, map_result f l = Ok ys) <-> (forall x, In x l -> exists y, f x = Ok y).
Proof.
  split.
  - intros (ys & H) x Hx. apply map_result_ok in H. induction H as [|x' y' l' ys' E F IH]; [destruct Hx|].
    destruct Hx as [<-|Hx]; eauto.
  - induction l as [|x l IH]; intros H; [eexists; reflexivity|].
    destruct (H x) as (y & E); [now left|]. destruct IH as (ys & E'); [intros z Hz; apply H; now right|].
    exists (y :: ys). cbn [map_result]. now rewrite E, E'.
Qed.

Section Col.
Variable V : Type.
Local Notation column := (column V).
Lemma column_ok rows j vs : column rows j = Ok vs <-> Forall2 (fun r v => nth_error r j = Some v) rows vs.
Proof.
  revert vs. induction rows as [|r rows IH]; intros vs; cbn [StepModel.column].
  - split; [intros [= <-]; constructor|intros H; inversion H; reflexivity].
  - destruct (nth_error r j) as [v|] eqn:E.
    + destruct (column rows j) as [ws|e] eqn:C; cbn [bind]; split.
      * intros [= <-]. constructor; [exact E|now apply IH].
      * intros H. inversion H as [|? v' ? ws' E' F']; subst. apply IH in F'. congruence.
      * discriminate.
      * intros H. inversion H as [|? v' ? ws' E' F']; subst. apply IH in F'. discriminate.
    + split; [discriminate|]. intros H. inversion H; subst. congruence.
Qed.
Lemma column_total d rows j : rectangular d rows -> (j < d)%nat -> exists vs, column rows j = Ok vs.
Proof.
  intros R J. induction rows as [|r rows IH]; [eexists; reflexivity|]. cbn [StepModel.column].
  destruct IH as (vs & E); [intros x Hx; apply R; now right|].
  destruct (nth_error r j) as [v|] eqn:N; [rewrite E; cbn [bind]; eauto|].
  apply nth_error_None in N. rewrite (R r) in N by now left. lia.
Qed.
Lemma column_In rows j vs v : column rows j = Ok vs -> (In v vs <-> exists r, In r rows /\ nth_error r j = Some v).
Proof.
  intros H. apply column_ok in H. induction H as [|r w rows ws E F' IH]; cbn [In].
  - split; [tauto|intros (r & [] & _)].
  - rewrite IH. split.
    + intros [<-|(r' & Hr & Hv)]; [exists r; auto|exists r'; auto].
    + intros (r' & [<-|Hr] & Hv); [left; congruence|right; eauto].
Qed.
Lemma column_length rows j vs : column rows j = Ok vs -> length vs = length rows.
Proof. intros H. apply column_ok in H. symmetry. now apply Forall2_length in H. Qed.
Lemma column_nth rows j vs i r : column rows j = Ok vs -> nth_error rows i = Some r ->
  exists v, nth_error vs i = Some v /\ nth_error r j = Some v.
Proof.
  intros H Hr. apply column_ok in H. revert i Hr. induction H as [|r0 w rows ws E F' IH]; intros i Hr.
  - destruct i; discriminate.
  - destruct i as [|i]; cbn in *; [|auto]. injection Hr as ->. eauto.
Qed.

End Col.

Section Tab.
Variables (V F : Type) (missing : V -> bool) (number : V -> option F) (text : V -> string).
Variable categories : list string -> list string.
Local Notation category := (category V missing text).
Local Notation is_numeric := (is_numeric V F missing number).
Local Notation numeric_column := (numeric_column V F missing number).
Local Notation encode_column := (encode_column V F missing text).
Local Notation column := (column V).

(* a value that passes as a number *)
Definition numberlike (v : V) : Prop := missing v = true \/ number v <> None.
Lemma is_numeric_iff vs : is_numeric vs = true <-> forall v, In v vs -> numberlike v.
Proof.
  unfold StepModel.is_numeric. rewrite forallb_forall. unfold numberlike. split; intros H v Hv; specialize (H v Hv).
  - apply orb_true_iff in H. destruct H as [H|H]; [now left|right]. destruct (number v); congruence.
  - apply orb_true_iff. destruct H as [H|H]; [now left|right]. destruct (number v); congruence.
Qed.
Definition number_cell (v : V) : cell_out F := Num (if missing v then None else number v).
Lemma numeric_column_ok vs xs :
  numeric_column vs = Ok xs <-> (forall v, In v vs -> numberlike v) /\ xs = map (fun v => if missing v then None else number v) vs.
Proof.
  revert xs. induction vs as [|v vs IH]; intros xs; cbn [StepModel.numeric_column map].
  - split; [intros [= <-]; split; [intros v []|reflexivity]|intros [_ ->]; reflexivity].
  - assert (X : forall f, match numeric_column vs with Ok a => Ok (f :: a) | Err e => Err e end = Ok xs <->
              (forall w, In w vs -> numberlike w) /\ xs = f :: map (fun v => if missing v then None else number v) vs).
    { intros f. destruct (numeric_column vs) as [ys|e].
      - split.
        + intros [= <-]. destruct (proj1 (IH ys) eq_refl) as [A ->]. auto.
        + intros [A ->]. f_equal. f_equal. pose proof (proj2 (IH _) (conj A eq_refl)). congruence.
      - split; [discriminate|]. intros [A _]. pose proof (proj2 (IH _) (conj A eq_refl)). discriminate. }
    destruct (missing v) eqn:M; cbn [bind].
    + unfold bind. rewrite X. split.
      * intros [A E]. split; [intros w [<-|Hw]; [left; exact M|auto]|exact E].
      * intros [A E]. split; [intros w Hw; apply A; now right|exact E].
    + destruct (number v) as [f|] eqn:N; cbn [bind].
      * unfold bind. rewrite X. split.
        -- intros [A E]. split; [intros w [<-|Hw]; [right; congruence|auto]|exact E].
        -- intros [A E]. split; [intros w Hw; apply A; now right|exact E].
      * split; [discriminate|]. intros [A _]. specialize (A v (or_introl eq_refl)). destruct A as [A|A]; congruence.
Qed.
Definition block_of (cats : list string) (v : V) : list (cell_out F) := map (fun c => Ind (String.eqb c (category v))) cats.
Lemma encode_column_ok ignore cats vs bs :
  encode_column ignore cats vs = Ok bs <->
  (ignore = true \/ forall v, In v vs -> In (category v) cats) /\ bs = map (block_of cats) vs.
Proof.
  revert bs. induction vs as [|v vs IH]; intros bs; cbn [StepModel.encode_column map].
  - split; [intros [= <-]; split; [right; intros v []|reflexivity]|intros [_ ->]; reflexivity].
  - assert (EX : existsb (String.eqb (category v)) cats = true <-> In (category v) cats).
    { rewrite existsb_exists. split.
      - intros (x & Hx & E). apply String.eqb_eq in E. congruence.
      - intros H. exists (category v). now rewrite String.eqb_refl. }
    destruct (negb ignore && negb (existsb (String.eqb (category v)) cats)) eqn:B.
    + split; [discriminate|]. intros [[A|A] _]; apply andb_true_iff in B; destruct B as [B1 B2].
      * subst ignore. discriminate.
      * rewrite (proj2 EX) in B2 by (apply A; now left). discriminate.
    + apply andb_false_iff in B.
      destruct (encode_column ignore cats vs) as [ys|e] eqn:E; cbn [bind].
      * destruct (proj1 (IH ys) eq_refl) as [A ->]. split.
        -- intros [= <-]. split; [|reflexivity]. destruct A as [A|A]; [now left|].
           destruct B as [B|B]; [left; destruct ignore; [reflexivity|discriminate]|right].
           intros w [<-|Hw]; [|auto]. apply EX. destruct (existsb _ cats); [reflexivity|discriminate].
        -- intros [_ ->]. reflexivity.
      * split; [discriminate|]. intros [A _]. exfalso.
        assert (K : encode_column ignore cats vs = Ok (map (block_of cats) vs)).
        { rewrite E. apply IH. split; [|reflexivity]. destruct A as [A|A]; [now left|right]. intros w Hw. apply A. now right. }
        congruence.
Qed.
Lemma beside_nth n blocks i :
  (forall b, In b blocks -> length b = n) -> (i < n)%nat ->
  exists parts, Forall2 (fun b p => nth_error b i = Some p) blocks parts /\
                nth_error (beside F n blocks) i = Some (concat parts).
Proof.
  intros H I. induction blocks as [|b blocks IH]; cbn [beside].
  - exists []. split; [constructor|]. now apply nth_error_repeat.
  - destruct IH as (parts & F2 & N); [intros x Hx; apply H; now right|].
    destruct (nth_error b i) as [p|] eqn:B.
    + exists (p :: parts). split; [now constructor|].
      rewrite nth_error_map.
      assert (C : forall (A B : Type) (l : list A) (m : list B) k x y, nth_error l k = Some x -> nth_error m k = Some y ->
                   nth_error (combine l m) k = Some (x, y)).
      { clear. intros A B l. induction l as [|a l IH]; intros m k x y Hx Hy; [destruct k; discriminate|].
        destruct m as [|b m]; [destruct k; discriminate|]. destruct k; cbn in *; [congruence|eauto]. }
      rewrite (C _ _ _ _ _ _ _ B N). reflexivity.
    + apply nth_error_None in B. rewrite (H b) in B by now left. lia.
Qed.
Lemma beside_length n blocks : (forall b, In b blocks -> length b = n) -> length (beside F n blocks) = n.
Proof.
  intros H. induction blocks as [|b blocks IH]; cbn [beside]; [apply repeat_length|].
  rewrite map_length, combine_length, IH by (intros x Hx; apply H; now right).
  rewrite (H b) by now left. lia.
Qed.

(* ---- fitting ---- *)
Definition col_numeric (rows : list (list V)) (j : nat) : bool :=
  match column rows j with Ok vs => is_numeric vs | Err _ => false end.
Definition col_cats (rows : list (list V)) (j : nat) : list string :=
  match column rows j with Ok vs => categories (map category vs) | Err _ => [] end.
Lemma split_columns_ok rows js st :
  split_columns V F missing number text categories rows js = Ok st ->
  f_numeric st = filter (col_numeric rows) js /\
  f_cat st = map (fun j => (j, col_cats rows j)) (filter (fun j => negb (col_numeric rows j)) js).
Proof.
  revert st. induction js as [|j js IH]; intros st; cbn [split_columns filter].
  - intros [= <-]. split; reflexivity.
  - destruct (column rows j) as [vs|e] eqn:C; cbn [bind]; [|discriminate].
    assert (CN : col_numeric rows j = is_numeric vs) by (unfold col_numeric; now rewrite C).
    rewrite CN.
    destruct (split_columns V F missing number text categories rows js) as [rest|e] eqn:R; cbn [bind]; [|discriminate].
    destruct (IH rest eq_refl) as [H1 H2].
    destruct (is_numeric vs) eqn:N; intros [= <-]; cbn [f_numeric f_cat negb map].
    + rewrite H1, H2. split; reflexivity.
    + rewrite H1, H2. split; [reflexivity|]. f_equal. unfold col_cats. rewrite C. reflexivity.
Qed.
Lemma split_columns_total d rows js :
  rectangular d rows -> (forall j, In j js -> (j < d)%nat) ->
  exists st, split_columns V F missing number text categories rows js = Ok st.
Proof.
  intros R. induction js as [|j js IH]; intros H; [eexists; reflexivity|]. cbn [split_columns].
  destruct (column_total V d rows j R) as (vs & C); [apply H; now left|].
  destruct IH as (st & E); [intros k Hk; apply H; now right|].
  rewrite C. cbn [bind]. rewrite E. cbn [bind]. destruct (is_numeric vs); eauto.
Qed.
Lemma take_rows_In {A} (rows : list A) idx xs x : take_rows rows idx = Ok xs -> In x xs -> In x rows.
Proof.
  intros H. apply take_rows_ok in H. induction H as [|i y idx ys D F2 IH]; [intros []|].
  intros [<-|Hx]; [|auto]. destruct D as [_ D]. now apply nth_error_In in D.
Qed.
End Tab.

(* ---- edges ---- *)
Fixpoint positions_from (k : nat) (take : list bool) : list nat :=
  match take with [] => [] | b :: t => (if b then [k] else []) ++ positions_from (S k) t end.
Lemma positions_bound k take p : In p (positions_from k take) -> (k <= p < k + length take)%nat.
Proof.
  revert k. induction take as [|b t IH]; intros k; cbn [positions_from length]; [intros []|].
  rewrite in_app_iff. intros [H|H].
  - destruct b; [|destruct H]. destruct H as [<-|[]]. lia.
  - apply IH in H. lia.
Qed.
Lemma positions_sorted k take : StronglySorted lt (positions_from k take).
Proof.
  revert k. induction take as [|b t IH]; intros k; cbn [positions_from]; [constructor|].
  destruct b; cbn [app]; [|apply IH]. constructor; [apply IH|].
  apply Forall_forall. intros p H. apply positions_bound in H. lia.
Qed.
Lemma positions_In k take p : In p (positions_from k take) <-> (k <= p)%nat /\ nth_error take (p - k) = Some true.
Proof.
  revert k. induction take as [|b t IH]; intros k; cbn [positions_from].
  - split; [intros []|]. intros [_ H]. destruct (p - k)%nat; discriminate.
  - rewrite in_app_iff, IH. split.
    + intros [H|[H1 H2]].
      * destruct b; [|destruct H]. destruct H as [<-|[]]. split; [lia|]. now rewrite Nat.sub_diag.
      * split; [lia|]. replace (p - k)%nat with (S (p - S k)) by lia. exact H2.
    + intros [H1 H2]. destruct (Nat.eq_dec p k) as [->|N].
      * rewrite Nat.sub_diag in H2. cbn in H2. injection H2 as ->. left. now left.
      * right. split; [lia|]. replace (p - k)%nat with (S (p - S k)) in H2 by lia. exact H2.
Qed.
Lemma keep_picks {A} k take (l pre : list A) :
  length pre = k -> length take = length l -> picks (positions_from k take) (pre ++ l) (keep take l).
Proof.
  revert k pre l. induction take as [|b t IH]; intros k pre l Hp Hl; destruct l as [|x l]; cbn [length] in Hl; try lia;
    cbn [positions_from keep]; [constructor|].
  assert (T : picks (positions_from (S k) t) (pre ++ x :: l) (keep t l)).
  { replace (pre ++ x :: l) with ((pre ++ [x]) ++ l) by (rewrite <- app_assoc; reflexivity).
    apply IH; [rewrite app_length; cbn; lia|lia]. }
  destruct b; cbn [app]; [|exact T]. constructor; [|exact T].
  rewrite nth_error_app2 by lia. now rewrite Hp, Nat.sub_diag.
Qed.
Lemma keep_length {A B} take (l : list A) (m : list B) : length l = length m -> length (keep take l) = length (keep take m).
Proof.
  revert l m. induction take as [|b t IH]; intros l m H; [reflexivity|].
  destruct l as [|x l], m as [|y m]; cbn [length] in H; try lia; [reflexivity|]. cbn [keep].
  destruct b; cbn [length]; rewrite (IH l m) by lia; reflexivity.
Qed.
Lemma keep_combine {A B} take (l : list A) (m : list B) : keep take (combine l m) = combine (keep take l) (keep take m).
Proof.
  revert l m. induction take as [|b t IH]; intros l m; [reflexivity|].
  destruct l as [|x l]; [reflexivity|]. destruct m as [|y m].
  - cbn [combine keep]. destruct b; [reflexivity|]. now rewrite combine_nil.
  - cbn [combine keep]. destruct b; cbn [combine]; now rewrite IH.
Qed.
Lemma keep_map {A B} (f : A -> B) take l : keep take (map f l) = map f (keep take l).
Proof.
  revert l. induction take as [|b t IH]; intros l; [reflexivity|]. destruct l as [|x l]; [reflexivity|].
  cbn [map keep]. destruct b; cbn [map]; now rewrite IH.
Qed.
Lemma choose_length draws pick frac E : (forall n, length (draws n) = n) -> length (choose draws pick frac E) = E.
Proof.
  intros H. unfold choose. destruct (negb _ && negb _); rewrite ?update_len, map_length, H; reflexivity.
Qed.
Lemma choose_some draws pick frac E :
  (forall n, length (draws n) = n) -> (forall n, 0 < n -> 0 <= pick n < n) -> (0 < E)%nat ->
  exists p, nth_error (choose draws pick frac E) p = Some true.
Proof.
  intros D P Pos. unfold choose. set (take := map _ (draws E)).
  assert (Lt : length take = E) by (unfold take; now rewrite map_length, D).
  replace (Nat.eqb E 0) with false by lia. rewrite andb_true_r.
  destruct (existsb (fun b : bool => b) take) eqn:X; cbn [negb].
  - apply existsb_exists in X. destruct X as (b & Hb & ->). now apply In_nth_error in Hb.
  - set (p := Z.to_nat (pick (Z.of_nat E))). exists p. rewrite update_nth, Nat.eqb_refl.
    assert (Lp : (p < E)%nat) by (specialize (P (Z.of_nat E) ltac:(lia)); unfold p; lia).
    destruct (nth_error take p) eqn:N; [reflexivity|]. apply nth_error_None in N. lia.
Qed.
