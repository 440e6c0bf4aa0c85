From Coq Require Import String Ascii SpecFloat ZifyBool ZifyNat.
From Verif Require Import Prelude ListFacts FloatModel SamplingSpec FloatProofs SampleServiceProofs ViewsModel ViewsSpec.
Local Open Scope Z_scope.
Local Open Scope list_scope.

(* ------------------------------------------------------------------ plan validation *)
Lemma memN_In x l : memN x l = true <-> In x l.
Proof.
  unfold memN. rewrite existsb_exists. split; [intros (y & H & E); apply String.eqb_eq in E; subst; exact H|].
  intros H. exists x. split; [exact H|apply String.eqb_refl].
Qed.
Lemma dup_names_false l : dup_names l = false <-> NoDup l.
Proof.
  induction l as [|x l IH]; cbn; [split; [constructor|reflexivity]|]. rewrite orb_false_iff, IH. split.
  - intros [H1 H2]. constructor; [|exact H2]. intros H. apply memN_In in H. congruence.
  - intros H. inversion_clear H as [|? ? Hn Hd]. split; [|exact Hd]. destruct (memN x l) eqn:E; [|reflexivity]. apply memN_In in E. contradiction.
Qed.
Lemma target_some s t : target s = Some t <-> cs_complement_of s = Some t /\ t <> ""%string.
Proof.
  unfold target. destruct (cs_complement_of s) as [[|c r]|]; split; try discriminate.
  - intros [[= <-] H]. congruence.
  - intros [= <-]. split; [reflexivity|discriminate].
  - intros [[= <-] _]. reflexivity.
  - intros [H _]. discriminate.
Qed.
Lemma validate_columns_ok s : validate_columns s = Ok tt <-> well_formed_columns s.
Proof.
  unfold validate_columns, well_formed_columns. destruct (cs_mode s).
  - tauto.
  - destruct (cs_indices s) as [|i l] eqn:E; [split; [discriminate|intros [H _]; congruence]|]. rewrite <- E.
    destruct (existsb (fun j => j <? 0) (cs_indices s)) eqn:Ex.
    + split; [discriminate|]. intros [_ H]. apply existsb_exists in Ex. destruct Ex as (j & Hj & Hlt). specialize (H j Hj). lia.
    + split; [|reflexivity]. intros _. split; [rewrite E; discriminate|]. intros j Hj. destruct (Z.ltb_spec j 0); [|lia].
      assert (existsb (fun j => j <? 0) (cs_indices s) = true) by (apply existsb_exists; exists j; split; [exact Hj|lia]). congruence.
  - destruct (_ && _) eqn:E; [apply andb_prop in E; tauto|]. apply andb_false_iff in E. split; [discriminate|]. intros [H1 H2]. destruct E; congruence.
  - destruct (target s) as [t|] eqn:E.
    + apply target_some in E. split; [eauto|reflexivity].
    + split; [discriminate|]. intros (t & H). apply target_some in H. congruence.
  - split; [discriminate|tauto].
Qed.
Lemma unit_ok (r : result unit) x : r = Ok x -> r = Ok tt.
Proof. destruct x. auto. Qed.
Lemma validate_each_ok {P} (l : list (view_spec P)) : validate_each l = Ok tt <->
  forall v, In v l -> blank (v_name v) = false /\ forall s, v_columns v = Some s -> well_formed_columns s.
Proof.
  induction l as [|v l IH]; cbn [validate_each]; [split; [intros _ v []|reflexivity]|].
  assert (Hv : validate_view v = Ok tt <-> blank (v_name v) = false /\ forall s, v_columns v = Some s -> well_formed_columns s).
  { unfold validate_view. destruct (blank (v_name v)); [split; [discriminate|intros [H _]; discriminate]|].
    destruct (v_columns v) as [s|].
    - rewrite validate_columns_ok. split; [intros H; split; [reflexivity|congruence]|intros [_ H]; apply H; reflexivity].
    - split; [intros _; split; [reflexivity|discriminate]|reflexivity]. }
  split.
  - intros H. inv_bind H. apply unit_ok in E. intros u [<-|Hu]; [apply Hv, E|apply IH; assumption].
  - intros H. rewrite (proj2 Hv) by (apply H; left; reflexivity). cbn [bind]. apply IH. intros u Hu. apply H. right. exact Hu.
Qed.
Lemma validate_order_ok {P} (l : list (view_spec P)) : forall pre, validate_order l (rev (map v_name pre)) = Ok tt <->
  forall before v after s, l = before ++ v :: after -> v_columns v = Some s -> cs_mode s = Complement ->
     exists u, In u (pre ++ before) /\ target s = Some (v_name u).
Proof.
  induction l as [|v l IH]; intros pre; cbn [validate_order].
  - split; [intros _ [|? ?] ? ? ? H; discriminate|reflexivity].
  - assert (Hv : (match v_columns v with
              | Some s => match cs_mode s, target s with
                          | Complement, Some t => if memN t (rev (map v_name pre)) then Ok tt else Err ViewsError
                          | Complement, None => Err ViewsError
                          | _, _ => Ok tt
                          end
              | None => Ok tt
              end) = Ok tt <-> forall s, v_columns v = Some s -> cs_mode s = Complement -> exists u, In u pre /\ target s = Some (v_name u)).
    { destruct (v_columns v) as [s|]; [|split; [discriminate|reflexivity]]. destruct (cs_mode s) eqn:Em.
      1,2,3,5: split; [intros _ s' [= <-]; congruence|reflexivity].
      destruct (target s) as [t|] eqn:Et.
      - destruct (memN t (rev (map v_name pre))) eqn:E.
        + split; [|reflexivity]. intros _ s' [= <-] _. apply memN_In in E. rewrite <- in_rev in E. apply in_map_iff in E. destruct E as (u & <- & Hu). eauto.
        + split; [discriminate|]. intros H. destruct (H s eq_refl Em) as (u & Hu & Eu). rewrite Et in Eu. injection Eu as ->.
          assert (memN (v_name u) (rev (map v_name pre)) = true) by (apply memN_In; rewrite <- in_rev; apply in_map, Hu). congruence.
      - split; [discriminate|]. intros H. destruct (H s eq_refl Em) as (u & _ & Eu). congruence. }
    assert (Er : v_name v :: rev (map v_name pre) = rev (map v_name (pre ++ [v]))) by (rewrite map_app, rev_app_distr; reflexivity).
    rewrite Er. split.
    + intros H. inv_bind H. apply unit_ok in E. intros [|b before] w after s El Hc Hm.
      * injection El as <- <-. rewrite app_nil_r. apply (proj1 Hv E s); assumption.
      * injection El as <- ->. destruct (proj1 (IH (pre ++ [v])) H before w after s eq_refl Hc Hm) as (u & Hu & Eu). rewrite <- app_assoc in Hu. eauto.
    + intros H. rewrite (proj2 Hv); cbn [bind].
      * apply IH. intros before w after s -> Hc Hm. destruct (H (v :: before) w after s eq_refl Hc Hm) as (u & Hu & Eu). exists u. rewrite <- app_assoc. auto.
      * intros s Hc Hm. destruct (H [] v l s eq_refl Hc Hm) as (u & Hu & Eu). rewrite app_nil_r in Hu. eauto.
Qed.
Lemma validate_plan_ok {P} (l : list (view_spec P)) : validate_plan l = Ok tt <-> well_formed_plan l.
Proof.
  unfold validate_plan, well_formed_plan. destruct (Nat.ltb_spec (List.length l) 2) as [H|H]; [split; [discriminate|lia]|].
  destruct (dup_names (map v_name l)) eqn:Ed.
  { split; [discriminate|]. intros (_ & Hn & _). apply dup_names_false in Hn. congruence. }
  apply dup_names_false in Ed. split.
  - intros E. inv_bind E. apply unit_ok in E0. split; [exact H|]. split; [exact Ed|]. split; [apply validate_each_ok, E0|].
    intros before v after s El Hc Hm. destruct (proj1 (validate_order_ok l []) E before v after s El Hc Hm) as (u & Hu & Eu).
    exists u. split; [exact Hu|]. apply target_some in Eu. apply Eu.
  - intros (_ & _ & H3 & H4). rewrite (proj2 (validate_each_ok l) H3). cbn [bind]. apply (validate_order_ok l []).
    intros before v after s El Hc Hm. destruct (H4 before v after s El Hc Hm) as (u & Hu & Eu). exists u. split; [exact Hu|].
    apply target_some. split; [exact Eu|]. assert (Hin : In v l) by (rewrite El; apply in_or_app; right; left; reflexivity).
    destruct (proj2 (H3 v Hin) s Hc) as [] || (pose proof (proj2 (H3 v Hin) s Hc) as W; unfold well_formed_columns in W; rewrite Hm in W; destruct W as (t & Et & Ht)).
    congruence.
Qed.

(* ------------------------------------------------------------------ columns *)
Lemma assoc_put {A} (l : list (string * A)) k v k' : assoc (put l k v) k' = if String.eqb k k' then Some v else assoc l k'.
Proof.
  unfold assoc. induction l as [|[a w] l IH]; cbn [put find fst].
  - destruct (String.eqb k k'); reflexivity.
  - destruct (String.eqb_spec a k) as [->|N]; cbn [find fst].
    + destruct (String.eqb_spec k k'); reflexivity.
    + destruct (String.eqb_spec a k') as [->|]; [|exact IH]. destruct (String.eqb_spec k k'); [congruence|reflexivity].
Qed.
Lemma put_new {A} (l : list (string * A)) k v : ~ In k (map fst l) -> put l k v = l ++ [(k, v)].
Proof.
  induction l as [|[a w] l IH]; cbn; intros H; [reflexivity|]. destruct (String.eqb_spec a k) as [->|]; [tauto|]. f_equal. apply IH. tauto.
Qed.
Lemma assoc_In {A} (l : list (string * A)) k v : assoc l k = Some v -> In (k, v) l.
Proof.
  unfold assoc. destruct (find _ l) as [[a w]|] eqn:E; [|discriminate]. intros [= <-]. apply find_some in E. destruct E as [H1 H2].
  cbn in *. apply String.eqb_eq in H2. subst. exact H1.
Qed.
Lemma In_assoc {A} (l : list (string * A)) k v : NoDup (map fst l) -> In (k, v) l -> assoc l k = Some v.
Proof.
  unfold assoc. induction l as [|[a w] l IH]; cbn; intros Hn H; [destruct H|]. inversion_clear Hn as [|? ? Ha Hd].
  destruct H as [[= -> ->]|H]; [rewrite String.eqb_refl; reflexivity|]. destruct (String.eqb_spec a k) as [->|]; [|apply IH; assumption].
  exfalso. apply Ha. apply (in_map fst) in H. exact H.
Qed.

Section Resolve.
Variable D : Draws.
Hypothesis HD : draws_ok D.
Lemma resolve_ok spec n seed name resolved nmap cols : resolve_columns D spec n seed name resolved nmap = Ok cols ->
  0 < n /\ cols <> [] /\ ascending cols /\ (forall c, In c cols -> 0 <= c < n) /\ describes resolved spec n cols /\
  (forall s, spec = Some s -> cs_mode s = Complement -> exists other, cs_complement_of s = Some other /\ assoc nmap other = Some n).
Proof.
  unfold resolve_columns. destruct (Z.leb_spec n 0) as [|Hn]; [discriminate|].
  assert (Hall : Ok (arange n) = Ok cols -> 0 < n /\ cols <> [] /\ ascending cols /\ (forall c, In c cols -> 0 <= c < n) /\ (forall c, In c cols <-> 0 <= c < n)).
  { intros [= <-]. split; [exact Hn|]. split; [|split; [apply arange_ascending|split; intros c; apply arange_In]].
    intros E. assert (In 0 (arange n)) by (apply arange_In; lia). rewrite E in H. destruct H. }
  destruct spec as [s|]; [|intros H; apply Hall in H; destruct H as (A & B & C & F & G); cbn; split; [exact A|split; [exact B|split; [exact C|split; [exact F|split; [exact G|discriminate]]]]]].
  unfold describes. destruct (cs_mode s) eqn:Em.
  - intros H. apply Hall in H. destruct H as (A & B & C & F & G). split; [exact A|split; [exact B|split; [exact C|split; [exact F|split; [exact G|]]]]].
    intros s' [= <-]. congruence.
  - intros H. inv_bind H. apply unit_ok in E; apply validate_columns_ok in E. unfold well_formed_columns in E. rewrite Em in E. destruct E as [Hne Hpos].
    destruct (has_dup (cs_indices s)) eqn:Ed; [discriminate|]. apply has_dup_false in Ed.
    destruct (existsb _ (cs_indices s)) eqn:Ex; [discriminate|]. injection H as <-.
    assert (Hr : forall c, In c (cs_indices s) -> 0 <= c < n).
    { intros c Hc. destruct ((c <? 0) || (n <=? c)) eqn:Eb; [|lia].
      assert (existsb (fun c => (c <? 0) || (n <=? c)) (cs_indices s) = true) by (apply existsb_exists; exists c; auto). congruence. }
    split; [exact Hn|]. split.
    { intros E. destruct (cs_indices s) as [|c l] eqn:Ec; [congruence|]. assert (In c (sortZ (c :: l))) by (apply sortZ_In; left; reflexivity). rewrite E in H. destruct H. }
    split; [apply sortZ_ascending, Ed|]. split; [intros c Hc; apply Hr, sortZ_In, Hc|]. split; [intros c; apply sortZ_In|].
    intros s' [= <-]. congruence.
  - intros H. inv_bind H. inv_bind H. destruct (_ <? 0) in H; [discriminate|]. injection H as <-.
    set (ls := Z.lxor _ _). set (k := Z.max 1 (Z.min n a0)). destruct (HD ls n k) as (L1 & L2 & L3); [unfold k; lia|].
    assert (L0 : lenZ (sortZ (choice D ls n k)) = k) by (unfold lenZ in *; rewrite sortZ_length; exact L1).
    split; [exact Hn|]. split; [intros Ez; rewrite Ez in L0; unfold lenZ, k in L0; cbn [List.length] in L0; lia|].
    split; [apply sortZ_ascending, L2|]. split; [intros c Hc; apply L3, sortZ_In, Hc|].
    split; [exists a0; split; [apply round_mul_spec; assumption|exact L0]|]. intros s' [= <-]. congruence.
  - intros H. inv_bind H. destruct (target s) as [other|] eqn:Et; [|discriminate]. destruct (assoc resolved other) as [base|] eqn:Eb; [|discriminate].
    destruct (assoc nmap other) as [m|] eqn:En; [|discriminate]. destruct (Z.eqb_spec m n) as [->|]; [|discriminate].
    apply target_some in Et. assert (Hc : setdiff1d (arange n) base = cols /\ cols <> []).
    { destruct (setdiff1d (arange n) base); [discriminate|]. injection H as <-. split; [reflexivity|discriminate]. }
    destruct Hc as [<- Hne]. split; [exact Hn|]. split; [exact Hne|]. split; [apply setdiff1d_ascending|].
    split; [intros c Hc; apply setdiff1d_In in Hc; apply arange_In, Hc|]. split.
    + exists other, base. split; [apply Et|]. split; [apply assoc_In, Eb|]. intros c. rewrite setdiff1d_In, arange_In. reflexivity.
    + intros s' [= <-] _. exists other. split; [apply Et|exact En].
  - intros H. inv_bind H. discriminate.
Qed.
End Resolve.

Lemma describes_mono cols1 cols2 spec n cols : incl cols1 cols2 -> describes cols1 spec n cols -> describes cols2 spec n cols.
Proof.
  intros Hi. unfold describes. destruct spec as [s|]; [|auto]. destruct (cs_mode s); auto.
  intros (other & base & H1 & H2 & H3). exists other, base. auto.
Qed.

Section Gen.
Context {V Y E M O P : Type}.
Variable D : Draws.
Hypothesis HD : draws_ok D.
Variable dflt : V.
Variable prep : P -> dataset V Y E M O -> result (dataset V Y E M O).

Lemma take_ok a cols b : (forall c, In c cols -> 0 <= c) -> take dflt a cols = Ok b -> restricted_array dflt cols a b.
Proof.
  intros Hp. destruct a as [|n rows]; cbn [take]; [discriminate|]. destruct (existsb _ cols) eqn:Ex; [discriminate|]. intros [= <-].
  cbn. split; [reflexivity|]. split; [apply map_length|]. split.
  - intros c Hc. split; [apply Hp, Hc|]. destruct (Z.leb_spec n c); [|lia].
    assert (existsb (fun c => n <=? c) cols = true) by (apply existsb_exists; exists c; split; [exact Hc|lia]). congruence.
  - intros i Hi. rewrite (nth_indep _ [] (take_row dflt cols [])) by (rewrite map_length; exact Hi). rewrite map_nth. unfold take_row. split; [apply map_length|].
    intros j Hj. rewrite (nth_indep _ dflt ((fun c => nth (Z.to_nat c) (nth i rows []) dflt) 0)) by (rewrite map_length; exact Hj).
    rewrite (map_nth (fun c => nth (Z.to_nat c) (nth i rows []) dflt)). reflexivity.
Qed.
Lemma take_split_ok (s : split V Y E M O) cols t : (forall c, In c cols -> 0 <= c) -> take_split dflt s cols = Ok t -> restricted_split dflt cols s t.
Proof.
  intros Hp H. unfold take_split in H. inv_bind H. injection H as <-. pose proof (take_ok _ _ _ Hp E0) as R.
  split; [|repeat split]. cbn [with_X s_X]. destruct (s_X s) as [x|x r|r]; cbn in *; [exact R|split; [exact R|reflexivity]|destruct R].
Qed.

Notation view_of := (view_of dflt prep).
Definition inv (data : dataset V Y E M O) (done : list (view_spec P)) (st : state V Y E M O) : Prop :=
  map fst (st_views st) = map v_name done /\ map fst (st_columns st) = map v_name done /\ map fst (st_n st) = map v_name done /\
  forall v, In v done -> view_of data (st_columns st) (st_views st) (st_n st) v.

Lemma one_view_inv data seed done st v st' : NoDup (map v_name (done ++ [v])) -> inv data done st ->
  one_view D dflt prep data seed st v = Ok st' -> inv data (done ++ [v]) st'.
Proof.
  intros Hn (I1 & I2 & I3 & I4) H. unfold one_view in H. inv_bind H. rename a into ds.
  assert (Hds : match v_preprocess v with None => ds = data | Some p => prep p data = Ok ds end) by (destruct (v_preprocess v); congruence).
  destruct (get_feats (s_X (d_train ds))) as [|n rows] eqn:Ef; [discriminate|].
  destruct (match d_test ds with Some t => get_feats (s_X t) | None => Matrix 0 [] end) as [|n2 rows2]; [discriminate|].
  inv_bind H. rename a into cols. inv_bind H. rename a into tr. inv_bind H. rename a into te. injection H as <-.
  rewrite map_app in Hn. apply NoDup_app_iff in Hn. destruct Hn as (Hn1 & _ & Hn2).
  assert (Hnew : ~ In (v_name v) (map v_name done)) by (intros Hin; apply (Hn2 _ Hin); left; reflexivity).
  unfold inv. cbn [st_views st_columns st_n].
  rewrite !put_new by congruence. rewrite !map_app. cbn [map fst]. rewrite I1, I2, I3. split; [reflexivity|]. split; [reflexivity|]. split; [reflexivity|].
  intros u Hu. apply in_app_or in Hu. destruct Hu as [Hu|[<-|[]]].
  - destruct (I4 u Hu) as (ds' & n' & cols' & view & A1 & A2 & A3 & A4 & A5 & A6 & A7 & A8 & A9 & A10 & A11).
    exists ds', n', cols', view. do 8 (split; [try assumption; try (apply in_or_app; left; assumption)|]). split.
    + eapply describes_mono; [|exact A9]. intros x Hx. apply in_or_app. left. exact Hx.
    + split; [|exact A11]. intros s Hs Hm. destruct (A10 s Hs Hm) as (other & B1 & B2). exists other. split; [exact B1|apply in_or_app; left; exact B2].
  - destruct (resolve_ok D HD _ _ _ _ _ _ _ E1) as (R1 & R2 & R3 & R4 & R5 & R6).
    exists ds, n, cols, {| d_train := tr; d_test := te |}. split; [exact Hds|]. split; [exists rows; exact Ef|].
    split; [apply in_or_app; right; left; reflexivity|]. split; [apply in_or_app; right; left; reflexivity|]. split; [apply in_or_app; right; left; reflexivity|].
    split; [exact R2|]. split; [exact R3|]. split; [exact R4|]. split.
    { eapply describes_mono; [|exact R5]. intros x Hx. apply in_or_app. left. exact Hx. }
    split.
    { intros s Hs Hm. destruct (R6 s Hs Hm) as (other & B1 & B2). exists other. split; [exact B1|]. apply in_or_app. left. apply assoc_In, B2. }
    assert (Hp : forall c, In c cols -> 0 <= c) by (intros c Hc; apply R4, Hc).
    split; [apply take_split_ok; assumption|]. cbn [d_test]. destruct (d_test ds) as [t|].
    + inv_bind E3. injection E3 as <-. apply take_split_ok; assumption.
    + injection E3 as <-. exact I.
Qed.
Lemma each_view_inv data seed l : forall done st st', NoDup (map v_name (done ++ l)) -> inv data done st ->
  each_view D dflt prep data seed st l = Ok st' -> inv data (done ++ l) st'.
Proof.
  induction l as [|v l IH]; intros done st st' Hn Hi H; cbn [each_view] in H.
  - injection H as <-. rewrite app_nil_r. exact Hi.
  - inv_bind H. assert (Hn' : NoDup (map v_name ((done ++ [v]) ++ l))) by (rewrite <- app_assoc; exact Hn).
    replace (done ++ v :: l) with ((done ++ [v]) ++ l) by (rewrite <- app_assoc; reflexivity). eapply IH; [exact Hn'| |exact H].
    eapply one_view_inv; [|exact Hi|exact E0]. rewrite map_app in Hn'. apply NoDup_app_iff in Hn'. apply Hn'.
Qed.
Lemma generate_ok data plan seed views columns : generate_views D dflt prep data plan seed = Ok (views, columns) ->
  well_formed_plan plan /\ map fst views = map v_name plan /\ map fst columns = map v_name plan /\
  exists nmap, map fst nmap = map v_name plan /\ forall v, In v plan -> view_of data columns views nmap v.
Proof.
  intros H. unfold generate_views in H. inv_bind H. inv_bind H. injection H as <- <-. apply unit_ok in E0; apply validate_plan_ok in E0.
  split; [exact E0|]. destruct (each_view_inv data seed plan [] {| st_views := []; st_columns := []; st_n := [] |} a0 (proj1 (proj2 E0))) as (A & B & C & F).
  - split; [reflexivity|]. split; [reflexivity|]. split; [reflexivity|]. intros v [].
  - exact E1.
  - cbn [app] in *. split; [exact A|]. split; [exact B|]. exists (st_n a0). auto.
Qed.

(* ------------------------------------------------------------------ the two-view split *)
Lemma two_view_ok (pre : option P) fraction off a b plan : two_view_split pre fraction off a b = Ok plan ->
  exists sa sb, plan = [{| v_name := a; v_preprocess := pre; v_columns := Some sa |}; {| v_name := b; v_preprocess := pre; v_columns := Some sb |}] /\
    cs_mode sa = Random /\ cs_fraction sa = fraction /\ cs_seed_offset sa = off /\ cs_mode sb = Complement /\ cs_complement_of sb = Some a.
Proof. unfold two_view_split. intros H. inv_bind H. injection H as <-. eexists. eexists. split; [reflexivity|]. repeat split. Qed.
Lemma two_view_accepts (pre : option P) fraction off a b : (exists plan, two_view_split pre fraction off a b = Ok plan) <->
  blank a = false /\ blank b = false /\ a <> b /\ f64_ltb f64_zero fraction = true /\ f64_leb fraction f64_one = true.
Proof.
  unfold two_view_split. set (va := {| v_name := a |}). set (vb := {| v_name := b |}).
  assert (W : well_formed_plan [va; vb] <-> blank a = false /\ blank b = false /\ a <> b /\ f64_ltb f64_zero fraction = true /\ f64_leb fraction f64_one = true).
  { split.
    - intros (_ & Hn & Hv & _). destruct (Hv va (or_introl eq_refl)) as [B1 C1]. destruct (Hv vb (or_intror (or_introl eq_refl))) as [B2 _].
      specialize (C1 _ eq_refl). cbn in *. inversion_clear Hn as [|? ? H1 _]. cbn in H1. intuition.
    - intros (B1 & B2 & Hab & F1 & F2). split; [cbn; lia|]. split; [cbn; constructor; [intros [H|[]]; congruence|constructor; [intros []|constructor]]|]. split.
      + intros v [<-|[<-|[]]]; (split; [assumption|]); intros s [= <-]; cbn; [auto|]. exists a. split; [reflexivity|]. intros ->. discriminate.
      + intros [|x [|y [|z r]]] v after s El Hc Hm; cbn in El.
        * injection El as <- _. cbn in Hc. injection Hc as <-. discriminate.
        * injection El as <- <- _. cbn in Hc. injection Hc as <-. exists va. split; [left; reflexivity|reflexivity].
        * injection El as <- <- Er. discriminate.
        * discriminate. }
  rewrite <- W, <- validate_plan_ok. destruct (validate_plan [va; vb]) as [[]|e]; cbn [bind]; split; try discriminate; eauto. intros [p H]. discriminate.
Qed.

Lemma take_split_total (s : split V Y E M O) m rows cols : get_feats (s_X s) = Matrix m rows -> (forall c, In c cols -> c < m) ->
  exists t, take_split dflt s cols = Ok t.
Proof.
  intros E0 H. unfold take_split. rewrite E0. cbn [take]. replace (existsb (fun c => m <=? c) cols) with false; [cbn; eauto|].
  symmetry. destruct (existsb (fun c => m <=? c) cols) eqn:Ex; [|reflexivity]. apply existsb_exists in Ex. destruct Ex as (c & Hc & Hle). specialize (H c Hc). lia.
Qed.
Lemma one_view_total data seed st v n cols : v_preprocess v = None -> wide data n ->
  resolve_columns D (v_columns v) n seed (v_name v) (st_columns st) (st_n st) = Ok cols ->
  exists vw, one_view D dflt prep data seed st v = Ok {| st_views := put (st_views st) (v_name v) vw;
     st_columns := put (st_columns st) (v_name v) cols; st_n := put (st_n st) (v_name v) n |}.
Proof.
  intros Hp [[rows Hr] Ht] Hc. unfold one_view. rewrite Hp. cbn [bind]. rewrite Hr.
  destruct (resolve_ok D HD _ _ _ _ _ _ _ Hc) as (R1 & R2 & R3 & R4 & _).
  destruct (take_split_total (d_train data) n rows cols Hr) as [tr Etr]; [intros c Hcc; apply R4, Hcc|].
  destruct (d_test data) as [t|] eqn:Ed.
  - destruct (Ht t eq_refl) as (m & rows' & Em & Hle). rewrite Em. rewrite Hc. cbn [bind]. rewrite Etr. cbn [bind].
    destruct (take_split_total t m rows' cols Em) as [te Ete]; [intros c Hcc; specialize (R4 c Hcc); lia|]. rewrite Ete. cbn [bind]. eauto.
  - rewrite Hc. cbn [bind]. rewrite Etr. cbn [bind]. eauto.
Qed.
Lemma one_view_fails data seed st v n e : v_preprocess v = None -> wide data n ->
  resolve_columns D (v_columns v) n seed (v_name v) (st_columns st) (st_n st) = Err e -> one_view D dflt prep data seed st v = Err e.
Proof.
  intros Hp [[rows Hr] Ht] Hc. unfold one_view. rewrite Hp. cbn [bind]. rewrite Hr.
  destruct (d_test data) as [t|] eqn:Ed.
  - destruct (Ht t eq_refl) as (m & rows' & Em & Hle). rewrite Em, Hc. reflexivity.
  - rewrite Hc. reflexivity.
Qed.
Lemma two_view_runs data seed fraction off a b plan n r : two_view_split None fraction off a b = Ok plan ->
  wide data n -> 0 < n -> round_mul fraction n = Ok r -> 0 <= Z.lxor (Z.lxor seed (stable_u32 D a)) off ->
  ((exists res, generate_views D dflt prep data plan seed = Ok res) <-> Z.max 1 (Z.min n r) < n).
Proof.
  intros Hplan Hw Hn Hr Hs. assert (Hab : a <> b /\ a <> ""%string /\ f64_ltb f64_zero fraction && f64_leb fraction f64_one = true).
  { assert (Hx : exists plan, two_view_split (None : option P) fraction off a b = Ok plan) by eauto. apply two_view_accepts in Hx.
    destruct Hx as (B1 & B2 & B3 & B4 & B5). split; [exact B3|]. split; [intros ->; discriminate|]. rewrite B4, B5. reflexivity. }
  destruct Hab as (Hab & Ha & Hf).
  unfold two_view_split in Hplan. inv_bind Hplan. injection Hplan as <-. unfold generate_views. rewrite E0. cbn [bind].
  set (k := Z.max 1 (Z.min n r)). set (va := {| v_name := a |}) in *. set (vb := {| v_name := b |}) in *.
  set (s0 := {| st_views := []; st_columns := []; st_n := [] |}). set (ls := Z.lxor (Z.lxor seed (stable_u32 D a)) off) in *.
  assert (Ra : resolve_columns D (v_columns va) n seed a [] [] = Ok (sortZ (choice D ls n k))).
  { unfold resolve_columns. replace (n <=? 0) with false by lia. cbn [v_columns va cs_mode validate_columns cs_fraction]. rewrite Hf. cbn [bind].
    rewrite Hr. cbn [bind cs_seed_offset]. fold ls k. replace (ls <? 0) with false by lia. reflexivity. }
  destruct (HD ls n k) as (L1 & L2 & L3); [unfold k; lia|].
  destruct (one_view_total data seed s0 va n _ eq_refl Hw Ra) as [vw Ev]. cbn [each_view]. rewrite Ev. cbn [bind st_views st_columns st_n s0 put v_name va].
  set (s1 := {| st_views := [(a, vw)] |}).
  assert (Rb : resolve_columns D (v_columns vb) n seed b [(a, sortZ (choice D ls n k))] [(a, n)] =
    match setdiff1d (arange n) (sortZ (choice D ls n k)) with [] => Err ViewsError | cols => Ok cols end).
  { unfold resolve_columns. replace (n <=? 0) with false by lia. cbn [v_columns vb cs_mode validate_columns].
    assert (Et : forall s, cs_complement_of s = Some a -> target s = Some a) by (intros s Hs'; apply target_some; auto).
    rewrite !Et by reflexivity. cbn [bind]. unfold assoc. cbn [find fst snd]. rewrite String.eqb_refl. cbn [snd]. rewrite Z.eqb_refl. reflexivity. }
  assert (Hk : setdiff1d (arange n) (sortZ (choice D ls n k)) <> [] <-> k < n).
  { rewrite setdiff1d_nil. assert (L4 : NoDup (sortZ (choice D ls n k))) by (apply (NoDup_perm _ _ (Permutation_sym (sortZ_perm _))), L2).
    assert (L5 : lenZ (sortZ (choice D ls n k)) = k) by (unfold lenZ in *; rewrite sortZ_length; exact L1).
    split.
    - intros Hni. destruct (Z_lt_ge_dec k n) as [|Hge]; [assumption|]. exfalso. apply Hni.
      apply NoDup_length_incl; [exact L4|unfold lenZ in L5; rewrite arange_length; lia|]. intros c Hc. apply arange_In, L3, sortZ_In, Hc.
    - intros Hlt Hi. apply NoDup_incl_length in Hi; [|apply arange_NoDup]. unfold lenZ in L5. rewrite arange_length in Hi. lia. }
  rewrite <- Hk. destruct (setdiff1d (arange n) (sortZ (choice D ls n k))) as [|c cols] eqn:Es.
  - split; [|congruence]. intros [res H]. erewrite (one_view_fails data seed s1 vb n ViewsError eq_refl Hw) in H; [discriminate|]. exact Rb.
  - split; [discriminate|]. intros _. destruct (one_view_total data seed s1 vb n _ eq_refl Hw Rb) as [vw2 Ev2]. rewrite Ev2. cbn [bind]. eauto.
Qed.
End Gen.

Lemma share_round f n r : rounded_share f n r -> round_mul f n = Ok r.
Proof.
  intros H. destruct (round_mul f n) as [r'|e] eqn:E0; [f_equal; eapply rounded_share_unique; [apply round_mul_spec, E0|exact H]|].
  destruct H as (q & Hq & _). unfold round_mul, py_round in E0. destruct (f64_mul f (f64_of_Z n)); cbn in *; congruence.
Qed.

(* ------------------------------------------------------------------ metadata *)
Lemma set_cell_length m : forall a d, List.length (set_cell m a d) = List.length m.
Proof. induction m as [|c m IH]; intros [|a] d; cbn; [| | |rewrite IH]; reflexivity. Qed.
Lemma set_cell_other m : forall a i d, a <> i -> nth i (set_cell m a d) [] = nth i m [].
Proof. induction m as [|c m IH]; intros [|a] [|i] d H; cbn; try reflexivity; try congruence. apply IH. congruence. Qed.
Lemma record_old memory : forall name cols a m' a' i, record_view memory name cols a = (m', a') -> (i < List.length memory)%nat ->
  (a = None \/ exists b, a = Some b /\ b <> i) -> (List.length memory <= List.length m')%nat /\ nth i m' [] = nth i memory [].
Proof.
  intros name cols a m' a' i H Hi Ha. unfold record_view in H. destruct a as [b|].
  - injection H as <- <-. destruct Ha as [Ha|(b' & [= <-] & Hb)]; [discriminate|]. rewrite set_cell_length. split; [lia|]. apply set_cell_other. auto.
  - injection H as <- <-. rewrite app_length. split; [lia|]. apply app_nth1, Hi.
Qed.
Lemma record_all_fresh cols : forall memory m' addrs, record_views memory None cols = (m', addrs) ->
  (exists l, m' = memory ++ l) /\ List.length addrs = List.length cols /\
  forall k, (k < List.length cols)%nat -> nth k addrs O = (List.length memory + k)%nat /\ nth (nth k addrs O) m' [] = [nth k cols (""%string, [])].
Proof.
  induction cols as [|[name c] cols IH]; intros memory m' addrs H; cbn [record_views] in H.
  - injection H as <- <-. split; [exists []; symmetry; apply app_nil_r|]. split; [reflexivity|]. intros k Hk. cbn in Hk. lia.
  - destruct (record_view memory name c None) as [m1 a1] eqn:E1. destruct (record_views m1 None cols) as [m2 r] eqn:E2. injection H as <- <-.
    cbn [record_view] in E1. injection E1 as <- <-. destruct (IH _ _ _ E2) as ([l Hl] & L & F). split.
    + exists ([(name, c)] :: l). rewrite Hl, <- app_assoc. reflexivity.
    + split; [cbn; lia|]. intros [|k] Hk; cbn [nth].
      * split; [lia|]. rewrite Hl, <- app_assoc, app_nth2, Nat.sub_diag by lia. reflexivity.
      * destruct (F k) as [F1 F2]; [cbn in Hk; lia|]. rewrite app_length in F1. cbn [List.length] in F1. split; [lia|exact F2].
Qed.
