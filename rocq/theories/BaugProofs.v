(* Proofs about the weak and strong views. *)
From Coq Require Import String Lia.
From Coq Require Import ZifyBool ZifyNat.
From Verif Require Import Prelude ListFacts PyValue BaugModel BaugSpec.
Local Open Scope string_scope.
Local Open Scope Z_scope.
Local Open Scope list_scope.
Local Notation length := List.length.

(* ---- plans *)
Lemma known_keys_iff d ks : known_keys d ks = true <-> only_keys d ks.
Proof.
  unfold known_keys, only_keys. rewrite forallb_forall. split.
  - intros H k v Hk. specialize (H (k, v) Hk). cbn [fst] in H. apply existsb_exists in H as (k' & H1 & H2). apply String.eqb_eq in H2 as ->. exact H1.
  - intros H [k v] Hk. cbn [fst]. apply existsb_exists. exists k. split; [eapply H, Hk|apply String.eqb_refl].
Qed.
Lemma step_from_iff o item op ps : step_from o item = Ok (op, ps) <-> step_means o item op ps.
Proof.
  unfold step_from, step_means. destruct item as [|b|z|f|s|l|d]; try (split; [discriminate|intros (d & [=] & _)]).
  assert (XD : forall P : pydict -> Prop, (exists d', PDict d = PDict d' /\ P d') <-> P d) by (intros P; split; [intros (d' & [= <-] & H); exact H|intros H; exists d; auto]). rewrite XD. clear XD.
  destruct (known_keys d ["id"; "op_id"; "params"]) eqn:EK; cbn [negb].
  2: { split; [discriminate|]. intros (K & _). apply known_keys_iff in K. congruence. }
  apply known_keys_iff in EK.
  assert (EP : forall nm, (if String.eqb nm "" then Err ValueError else match py_or (get_or d "params" (PDict [])) (PDict []) with PDict ps => Ok (nm, ps) | _ => Err ValueError end) = Ok (op, ps) <->
    nm = op /\ op <> "" /\ (lookup d "params" = Some (PDict ps) \/ (ps = [] /\ ~ truthy (lookup d "params")))).
  { intros nm. destruct (String.eqb_spec nm "") as [->|N]; [split; [discriminate|intros (<- & H & _); congruence]|]. unfold get_or, py_or, truthy.
    destruct (lookup d "params") as [v|]; cbn [py_bool length Nat.eqb negb].
    - destruct (py_bool v) eqn:EB.
      + destruct v; try (split; [discriminate|intros (_ & _ & [[=]|[_ H]]); now destruct H]). split; [intros [= <- <-]; auto|]. intros (<- & _ & [[= <-]|[_ H]]); [reflexivity|now destruct H].
      + split; [intros [= <- <-]; split; [reflexivity|split; [exact N|right; split; [reflexivity|discriminate]]]|]. intros (<- & _ & [[= ->]|[-> _]]); [|reflexivity]. cbn in EB. destruct ps; [reflexivity|discriminate].
    - split; [intros [= <- <-]; split; [reflexivity|split; [exact N|right; tauto]]|]. intros (<- & _ & [[=]|[-> _]]). reflexivity. }
  assert (EC : match lookup d "id", lookup d "op_id" with Some a, Some b => negb (String.eqb (py_str o a) (py_str o b)) | _, _ => false end = false <-> (forall a b, lookup d "id" = Some a -> lookup d "op_id" = Some b -> py_str o a = py_str o b)).
  { destruct (lookup d "id") as [a|], (lookup d "op_id") as [b|]; try (split; [intros _ ? ?; discriminate|reflexivity]). rewrite negb_false_iff, String.eqb_eq. split; [intros E a' b' [= <-] [= <-]; exact E|intros H; now apply H]. }
  destruct (match lookup d "id", lookup d "op_id" with Some a, Some b => negb (String.eqb (py_str o a) (py_str o b)) | _, _ => false end).
  { split; [discriminate|]. intros (_ & H & _). apply EC in H. discriminate. }
  cbv zeta. rewrite EP. pose proof (proj1 EC eq_refl) as CF. split.
  - intros (E1 & E2 & E3). split; [exact EK|]. split; [exact CF|]. split; [exact E2|]. split; [|exact E3]. unfold py_or, truthy in *.
    destruct (lookup d "id") as [a|]; cbn [val] in *.
    + destruct (py_bool a) eqn:EA; [rewrite EA in E1; exists a; auto|]. destruct (lookup d "op_id") as [b|]; cbn [val] in *.
      * destruct (py_bool b) eqn:EB; [exists b; split; [congruence|split; [exact EB|right; split; [discriminate|reflexivity]]]|]. cbn in E1. congruence.
      * cbn in E1. congruence.
    + cbn [py_bool] in E1. destruct (lookup d "op_id") as [b|]; cbn [val] in *.
      * destruct (py_bool b) eqn:EB; [exists b; split; [congruence|split; [exact EB|right; split; [tauto|reflexivity]]]|]. cbn in E1. congruence.
      * cbn in E1. congruence.
  - intros (_ & _ & E2 & (x & Ex & Bx & HX) & E3). split; [|auto]. unfold py_or, truthy in *. destruct HX as [HX|[NX HX]].
    + rewrite HX. cbn [val]. rewrite Bx, Bx. now symmetry.
    + rewrite HX. cbn [val]. destruct (lookup d "id") as [a|]; cbn [val].
      * apply not_true_is_false in NX. rewrite NX, Bx. now symmetry.
      * cbn [py_bool]. rewrite Bx. now symmetry.
Qed.
Lemma steps_from_iff o items : forall steps, steps_from o items = Ok steps <-> Forall2 (fun it s => step_means o it (fst s) (snd s)) items steps.
Proof.
  induction items as [|it r IH]; intros steps; cbn [steps_from].
  - split; [intros [= <-]; constructor|]. intros H. inversion H. reflexivity.
  - destruct (step_from o it) as [[op ps]|e] eqn:E; cbn [bind].
    + apply step_from_iff in E. destruct (steps_from o r) as [ss|e] eqn:E2; cbn [bind].
      * split; [intros [= <-]; constructor; [exact E|now apply IH]|]. intros H. inversion H as [|? s ? ss' H1 H2]; subst. apply IH in H2 as [= ->]. apply step_from_iff in H1, E. rewrite E in H1. injection H1 as -> ->. now destruct s.
      * split; [discriminate|]. intros H. inversion H as [|? s ? ss' H1 H2]; subst. apply IH in H2. discriminate.
    + split; [discriminate|]. intros H. inversion H as [|? s ? ss' H1 H2]; subst. apply step_from_iff in H1. congruence.
Qed.
Lemma plan_from_dict_iff o obj steps : plan_from_dict o obj = Ok steps <-> plan_means o obj steps.
Proof.
  unfold plan_from_dict, plan_means. destruct obj as [|b|z|f|s|l|d]; try (split; [discriminate|intros (d & items & [=] & _)]).
  destruct (known_keys d ["steps"; "modality"]) eqn:EK; cbn [negb].
  2: { split; [discriminate|]. intros (d' & items & [= <-] & K & _). apply known_keys_iff in K. congruence. }
  apply known_keys_iff in EK. unfold get_or. destruct (lookup d "steps") as [v|] eqn:EL.
  - destruct v; try (split; [discriminate|intros (d' & items & [= <-] & _ & [H|[H _]] & _); rewrite EL in H; discriminate]). rewrite steps_from_iff. split.
    + intros H. exists d, l. split; [reflexivity|]. split; [exact EK|]. split; [left; exact EL|exact H].
    + intros (d' & items & [= <-] & _ & [H|[H _]] & F); rewrite EL in H; [injection H as <-; exact F|discriminate].
  - rewrite steps_from_iff. split.
    + intros H. exists d, []. split; [reflexivity|]. split; [exact EK|]. split; [right; auto|exact H].
    + intros (d' & items & [= <-] & _ & [H|[H ->]] & F); [rewrite EL in H; discriminate|exact F].
Qed.
Lemma step_from_err o it e : step_from o it = Err e -> e = ValueError.
Proof.
  unfold step_from. destruct it as [| | | | | |d]; try congruence. cbv zeta. repeat match goal with |- (if ?b then _ else _) = _ -> _ => destruct b; [congruence|] end.
  destruct (py_or (get_or d "params" (PDict [])) (PDict [])); congruence.
Qed.
Lemma plan_from_dict_err o obj e : plan_from_dict o obj = Err e -> e = ValueError.
Proof.
  unfold plan_from_dict. destruct obj as [| | | | | |d]; try congruence. match goal with |- (if ?b then _ else _) = _ -> _ => destruct b; [congruence|] end. destruct (get_or d "steps" (PList [])) as [| | | | |l|]; try congruence. revert e. induction l as [|it r IH]; intros e; cbn [steps_from]; [discriminate|].
  destruct (step_from o it) eqn:E; cbn [bind]; [|intros [= <-]; eapply step_from_err, E]. destruct (steps_from o r); cbn [bind]; [discriminate|]. apply IH.
Qed.

Lemma eqb_shape_eq a : forall b, eqb_shape a b = true <-> a = b.
Proof. induction a as [|x a IH]; intros [|y b]; cbn; try (split; congruence). rewrite andb_true_iff, IH. split; [intros [H ->]; f_equal; lia|]. intros [= -> ->]. split; [lia|reflexivity]. Qed.
Lemma kind_eqb_eq a b : kind_eqb a b = true <-> a = b.
Proof. destruct a, b; cbn; split; congruence. Qed.

Section Views.
Context {X D A : Type}.
Variable cast : D -> A -> A.
Variable promote : list D -> D.
Notation arr := (arr D A).
Notation as_type := (as_type D A cast).
Notation shape := (a_shape D A).
Notation dtype := (a_dtype D A).
Notation view := (arr * arr * option arr)%type.
Definition vw (v : view) : arr := fst (fst v).
Definition vs0 (v : view) : arr := snd (fst v).
Definition vs1 (v : view) : arr := match snd v with Some z => z | None => fst (fst v) end.
Definition present (two : bool) (v : view) : Prop := match snd v with Some _ => two = true | None => two = false end.
Definition prealloc (v : view) : bool :=
  let same k := kind_eqb (a_kind _ _ (vw v)) k && kind_eqb (a_kind _ _ (vs0 v)) k && match snd v with Some z => kind_eqb (a_kind _ _ z) k | None => true end in same KTorch || same KNumpy.
Definition opt (two : bool) (l : list arr) : option (list arr) := if two then Some l else None.
Lemma as_type_shape d l : map shape (map (as_type d) l) = map shape l.
Proof using Type. rewrite map_map. reflexivity. Qed.
Lemma agree_shapes (l l' : list arr) : map shape l = map shape l' -> agree l -> agree l'.
Proof using Type.
  intros E H x y Hx Hy. apply (in_map shape) in Hx, Hy. rewrite <- E in Hx, Hy. apply in_map_iff in Hx as (x' & <- & Hx'). apply in_map_iff in Hy as (y' & <- & Hy'). now apply H.
Qed.
Lemma agree_cons x l : agree (x :: l) <-> forall y, In y l -> shape y = shape x.
Proof using Type.
  split; [intros H y Hy; apply H; [now right|now left]|]. intros H a b [<-|Ha] [<-|Hb]; [reflexivity|symmetry; now apply H|now apply H|]. rewrite (H a Ha), (H b Hb). reflexivity.
Qed.
Lemma agree_snoc x l y : agree (x :: l ++ [y]) <-> agree (x :: l) /\ shape y = shape x.
Proof using Type.
  rewrite !agree_cons. split.
  - intros H. split; [intros z Hz; apply H, in_or_app; now left|apply H, in_or_app; right; now left].
  - intros [H1 H2] z Hz. apply in_app_or in Hz as [Hz|[<-|[]]]; auto.
Qed.
Lemma stack_ok torch l r : stack D A cast promote torch l = Ok r <-> l <> [] /\ agree l /\ (torch = true -> forall x, In x l -> a_kind _ _ x = KTorch) /\ r = map (as_type (promote (map dtype l))) l.
Proof using Type.
  unfold stack. destruct (torch && negb (forallb (fun x => kind_eqb (a_kind D A x) KTorch) l)) eqn:E.
  - split; [discriminate|]. intros (_ & _ & H & _). apply andb_true_iff in E as [-> E]. apply negb_true_iff, not_true_iff_false in E. exfalso. apply E, forallb_forall. intros x Hx. apply kind_eqb_eq. now apply H.
  - assert (K : torch = true -> forall x, In x l -> a_kind _ _ x = KTorch).
    { intros -> x Hx. cbn in E. apply negb_false_iff in E. rewrite forallb_forall in E. now apply kind_eqb_eq, E. }
    destruct l as [|x l]; [split; [discriminate|intros [H _]; congruence]|]. destruct (forallb (fun y => eqb_shape (shape y) (shape x)) l) eqn:F.
    + rewrite forallb_forall in F. split; [|intros (_ & _ & _ & ->); reflexivity]. intros [= <-]. split; [discriminate|]. split; [|split; [exact K|reflexivity]]. apply agree_cons. intros y Hy. apply eqb_shape_eq. now apply F.
    + split; [discriminate|]. intros (_ & H & _). apply not_true_iff_false in F. exfalso. apply F, forallb_forall. intros y Hy. apply eqb_shape_eq. exact (proj1 (agree_cons x l) H y Hy).
Qed.
Lemma stack_numpy l : l <> [] -> agree l -> stack D A cast promote false l = Ok (map (as_type (promote (map dtype l))) l).
Proof using Type. intros NE AG. apply stack_ok. split; [exact NE|]. split; [exact AG|]. split; [discriminate|reflexivity]. Qed.
Definition all_agree (two : bool) (vs : list view) : Prop := agree (map vw vs) /\ agree (map vs0 vs) /\ (two = true -> agree (map vs1 vs)).
Definition inv (two : bool) (v0 : view) (r : list view) (c : collected D A) : Prop :=
  let vs := v0 :: r in
  (prealloc v0 = true /\ all_agree two vs /\
     c = Pre D A (map (as_type (dtype (vw v0))) (map vw vs)) (map (as_type (dtype (vs0 v0))) (map vs0 vs)) (opt two (map (as_type (dtype (vs1 v0))) (map vs1 vs)))) \/
  (prealloc v0 = true /\ ~ all_agree two vs /\ exists w s o, c = Lists D A w s (opt two o) /\ map shape w = map shape (map vw vs) /\ map shape s = map shape (map vs0 vs) /\ map shape o = map shape (map vs1 vs)) \/
  (prealloc v0 = false /\ c = Lists D A (map vw vs) (map vs0 vs) (opt two (map vs1 vs))).
Lemma inv_first two v0 : present two v0 -> inv two v0 [] (first D A cast v0).
Proof using Type.
  destruct v0 as [[xw xs] o]. unfold inv, present, first, prealloc, vw, vs0, vs1. cbn [fst snd map]. intros P.
  assert (S1 : forall x : arr, agree [x]) by (intros x a b [<-|[]] [<-|[]]; reflexivity).
  destruct ((kind_eqb (a_kind D A xw) KTorch && kind_eqb (a_kind D A xs) KTorch && match o with Some z => kind_eqb (a_kind D A z) KTorch | None => true end) || (kind_eqb (a_kind D A xw) KNumpy && kind_eqb (a_kind D A xs) KNumpy && match o with Some z => kind_eqb (a_kind D A z) KNumpy | None => true end)).
  - left. split; [reflexivity|]. split; [split; [apply S1|split; [apply S1|intros _; apply S1]]|]. destruct o as [z|]; subst two; reflexivity.
  - right. right. split; [reflexivity|]. destruct o as [z|]; subst two; reflexivity.
Qed.
Lemma fits_cons x l y d : fits D A (map (as_type d) (x :: l)) y = true <-> shape y = shape x.
Proof using Type. unfold fits, row0. cbn. apply eqb_shape_eq. Qed.
Lemma put_cons x l y : put D A cast (map (as_type (dtype x)) (x :: l)) y = map (as_type (dtype x)) (x :: l ++ [y]).
Proof using Type. unfold put, row0. cbn [map hd]. now rewrite map_app. Qed.
Lemma inv_more two v0 r c v : present two v -> inv two v0 r c -> inv two v0 (r ++ [v]) (more D A cast c v).
Proof using Type.
  intros P H. assert (M : forall f : view -> arr, map f (v0 :: r ++ [v]) = f v0 :: map f r ++ [f v]) by (intros f; cbn; now rewrite map_app).
  assert (AA : all_agree two (v0 :: r ++ [v]) <-> all_agree two (v0 :: r) /\ shape (vw v) = shape (vw v0) /\ shape (vs0 v) = shape (vs0 v0) /\ (two = true -> shape (vs1 v) = shape (vs1 v0))).
  { unfold all_agree. rewrite !M, !agree_snoc. cbn [map]. tauto. }
  destruct v as [[xw xs] o]. unfold present in P. cbn [snd] in P. change (vw (xw, xs, o)) with xw in AA; change (vs0 (xw, xs, o)) with xs in AA; change (vs1 (xw, xs, o)) with (match o with Some z => z | None => xw end) in AA.
  destruct H as [(PR & AG & ->)|[(PR & NA & w & s & o' & -> & E1 & E2 & E3)|(PR & ->)]].
  - cbn [more]. set (b := fits D A _ xw && fits D A _ xs && _).
    assert (B : b = true <-> shape xw = shape (vw v0) /\ shape xs = shape (vs0 v0) /\ (two = true -> shape (match o with Some z => z | None => xw end) = shape (vs1 v0))).
    { unfold b. cbn [map]. rewrite !andb_true_iff. change (as_type ?d ?x :: map (as_type ?d) ?l) with (map (as_type d) (x :: l)). rewrite !fits_cons. destruct o as [z|]; subst two; cbn [opt].
      - rewrite fits_cons. tauto.
      - intuition discriminate. }
    destruct b.
    + left. split; [exact PR|]. split; [apply AA; tauto|]. rewrite !M. cbn [map]. change (as_type ?d ?x :: map (as_type ?d) ?l) with (map (as_type d) (x :: l)). rewrite !put_cons. change (vw (xw, xs, o)) with xw; change (vs0 (xw, xs, o)) with xs; change (vs1 (xw, xs, o)) with (match o with Some z => z | None => xw end).
      f_equal. destruct o as [z|]; subst two; cbn [opt]; [|reflexivity]. change (as_type ?d ?x :: map (as_type ?d) ?l) with (map (as_type d) (x :: l)). now rewrite put_cons.
    + right. left. split; [exact PR|]. split; [intros H; apply AA in H as [_ H]; apply B in H; discriminate|].
      eexists _, _, (map (as_type (dtype (vs1 v0))) (map vs1 (v0 :: r)) ++ [match o with Some z => z | None => xw end]). split; [destruct o as [z|]; subst two; reflexivity|].
      rewrite !M, !map_app, !as_type_shape. cbn [map]. rewrite !map_app. auto.
  - right. left. split; [exact PR|]. split; [intros H; apply NA; apply AA in H; tauto|]. cbn [more]. exists (w ++ [xw]), (s ++ [xs]), (o' ++ [match o with Some z => z | None => xw end]).
    split; [destruct o as [z|]; subst two; reflexivity|]. rewrite !M, !map_app, E1, E2, E3. cbn [map]. rewrite !map_app. auto.
  - right. right. split; [exact PR|]. cbn [more]. rewrite !M. cbn [map app]. change (vw (xw, xs, o)) with xw; change (vs0 (xw, xs, o)) with xs; change (vs1 (xw, xs, o)) with (match o with Some z => z | None => xw end). destruct o as [z|]; subst two; reflexivity.
Qed.
Lemma inv_fold two v0 r2 : Forall (present two) r2 -> forall r c, inv two v0 r c -> inv two v0 (r ++ r2) (fold_left (more D A cast) r2 c).
Proof using Type.
  induction 1 as [|v r2 P _ IH]; intros r c H; cbn [fold_left]; [now rewrite app_nil_r|]. replace (r ++ v :: r2) with ((r ++ [v]) ++ r2) by now rewrite <- app_assoc. apply IH. now apply inv_more.
Qed.
(* the whole collection *)
Definition rows_type (v0 : view) (f : view -> arr) (vs : list view) : D := if prealloc v0 then dtype (f v0) else promote (map dtype (map f vs)).
Lemma finish_ok torch two v0 r res : present two v0 -> Forall (present two) r ->
  (finish D A cast promote torch (fold_left (more D A cast) r (first D A cast v0)) = Ok res <->
   all_agree two (v0 :: r) /\ (prealloc v0 = true \/ torch = false) /\
   res = (map (as_type (rows_type v0 vw (v0 :: r))) (map vw (v0 :: r)), map (as_type (rows_type v0 vs0 (v0 :: r))) (map vs0 (v0 :: r)), opt two (map (as_type (rows_type v0 vs1 (v0 :: r))) (map vs1 (v0 :: r))))).
Proof using Type.
  intros P0 PR. pose proof (inv_fold two v0 r PR [] _ (inv_first two v0 P0)) as H. cbn [app] in H. unfold inv in H. cbv zeta in H. set (vs := v0 :: r) in *. unfold rows_type.
  destruct H as [(E & AG & ->)|[(E & NA & w & s & o & -> & E1 & E2 & E3)|(E & ->)]]; rewrite E; cbn [finish].
  - split; [intros [= <-]; auto|intros (_ & _ & ->); reflexivity].
  - split; [|intros (H & _); contradiction]. intros F. exfalso. apply NA. destruct (stack D A cast promote torch w) as [w'|] eqn:Ew; cbn [bind] in F; [|discriminate]. destruct (stack D A cast promote torch s) as [s'|] eqn:Es; cbn [bind] in F; [|discriminate].
    apply stack_ok in Ew as (_ & Aw & _), Es as (_ & As & _). split; [eapply agree_shapes; eassumption|]. split; [eapply agree_shapes; eassumption|]. intros ->. cbn [opt] in F.
    destruct (stack D A cast promote torch o) as [o'|] eqn:Eo; cbn [bind] in F; [|discriminate]. apply stack_ok in Eo as (_ & Ao & _). eapply agree_shapes; eassumption.
  - assert (NT : forall b, (torch = true -> forall x, In x (map vw vs) -> a_kind D A x = KTorch) -> (torch = true -> forall x, In x (map vs0 vs) -> a_kind D A x = KTorch) -> (two = true -> torch = true -> forall x, In x (map vs1 vs) -> a_kind D A x = KTorch) -> torch = b -> torch = false).
    { intros b H1 H2 H3 _. destruct torch; [|reflexivity]. exfalso. specialize (H1 eq_refl (vw v0) (or_introl eq_refl)). specialize (H2 eq_refl (vs0 v0) (or_introl eq_refl)). unfold prealloc in E. cbv zeta in E.
      rewrite (proj2 (kind_eqb_eq _ _) H1), (proj2 (kind_eqb_eq _ _) H2) in E. cbn [andb] in E. unfold present in P0. unfold vs1 in H3 at 1. destruct (snd v0) as [z|] eqn:Ez; [|discriminate E].
      specialize (H3 P0 eq_refl (vs1 v0) (or_introl eq_refl)). unfold vs1 in H3. rewrite Ez in H3. rewrite H3 in E. discriminate E. }
    split.
    + intros F. destruct (stack D A cast promote torch (map vw vs)) as [w'|] eqn:Ew; cbn [bind] in F; [|discriminate]. destruct (stack D A cast promote torch (map vs0 vs)) as [s'|] eqn:Es; cbn [bind] in F; [|discriminate].
      apply stack_ok in Ew as (_ & Aw & Kw & ->), Es as (_ & As & Ks & ->). destruct two; cbn [opt] in *.
      * destruct (stack D A cast promote torch (map vs1 vs)) as [o'|] eqn:Eo; cbn [bind] in F; [|discriminate]. apply stack_ok in Eo as (_ & Ao & Ko & ->). injection F as <-. split; [split; [exact Aw|split; [exact As|intros _; exact Ao]]|]. split; [right; eapply NT; eauto|reflexivity].
      * injection F as <-. split; [split; [exact Aw|split; [exact As|discriminate]]|]. split; [right; eapply NT; eauto; discriminate|reflexivity].
    + intros ((Aw & As & Ao) & [HF| ->] & ->); [discriminate|]. assert (NE : forall f : view -> arr, map f vs <> []) by (intros f; discriminate).
      rewrite (stack_numpy (map vw vs) (NE vw) Aw). cbn [bind].
      rewrite (stack_numpy (map vs0 vs) (NE vs0) As). cbn [bind]. destruct two; cbn [opt]; [|reflexivity].
      rewrite (stack_numpy (map vs1 vs) (NE vs1) (Ao eq_refl)). reflexivity.
Qed.
(* the views of the samples, one by one *)
Variables p q : pipeline X D A.
Variable two : bool.
Variable seed : Z.
Variable m : option string.
Notation views_of := (views_of X D A p q two seed m).
Definition seen (xs : list X) (ids : list Z) (vs : list view) : Prop := (length xs <= length ids)%nat /\ Forall2 (fun xi v => views_of (fst xi) (snd xi) = Ok v) (combine xs ids) vs.
Lemma collect_ok xs : forall ids c c', collect X D A cast p q two seed m xs ids c = Ok c' <-> exists vs, seen xs ids vs /\ c' = fold_left (more D A cast) vs c.
Proof using Type.
  induction xs as [|x xs IH]; intros ids c c'; cbn [collect].
  - split; [intros [= <-]; exists []; split; [split; [cbn; lia|constructor]|reflexivity]|]. intros (vs & [_ H] & ->). inversion H. reflexivity.
  - destruct ids as [|id ids]; [split; [discriminate|]; intros (vs & [H _] & _); cbn in H; lia|]. destruct (views_of x id) as [v|e] eqn:E; cbn [bind].
    + rewrite IH. split.
      * intros (vs & [H1 H2] & ->). exists (v :: vs). split; [split; [cbn; lia|constructor; [exact E|exact H2]]|reflexivity].
      * intros (vs & [H1 H2] & ->). cbn [combine] in H2. inversion H2 as [|? v' ? vs' G1 G2]; subst. cbn [fst snd] in G1. rewrite E in G1. injection G1 as <-. exists vs'. split; [split; [cbn in H1; lia|exact G2]|reflexivity].
    + split; [discriminate|]. intros (vs & [H1 H2] & _). cbn [combine] in H2. inversion H2 as [|? v' ? vs' G1 G2]; subst. cbn [fst snd] in G1. congruence.
Qed.
Definition ctx (k : Z) (id : Z) : actx := {| ac_seed := seed + k; ac_sample := id; ac_modality := m |}.
Lemma views_of_ok x id v : views_of x id = Ok v <-> present two v /\ p x (ctx 0 id) = Ok (vw v) /\ q x (ctx 0 id) = Ok (vs0 v) /\ (two = true -> q x (ctx 1 id) = Ok (vs1 v)).
Proof using Type.
  unfold BaugModel.views_of, ctx. rewrite Z.add_0_r. destruct v as [[w s] o]. unfold present, vw, vs0, vs1. cbn [fst snd]. destruct (p x _) as [xw|e]; cbn [bind]; [|split; [discriminate|intros (_ & [=] & _)]].
  destruct (q x {| ac_seed := seed; ac_sample := id; ac_modality := m |}) as [xs|e]; cbn [bind]; [|split; [discriminate|intros (_ & _ & [=] & _)]]. destruct two.
  - destruct (q x {| ac_seed := seed + 1; ac_sample := id; ac_modality := m |}) as [xo|e]; cbn [bind].
    + split; [intros [= <- <- <-]; auto|]. intros (P & [= <-] & [= <-] & H). specialize (H eq_refl). destruct o; [|discriminate]. injection H as <-. reflexivity.
    + split; [discriminate|]. intros (_ & _ & _ & H). specialize (H eq_refl). discriminate.
  - split; [intros [= <- <- <-]; repeat split; auto; discriminate|]. intros (P & [= <-] & [= <-] & _). destruct o; [discriminate|reflexivity].
Qed.
Lemma drawn_cons (pp : pipeline X D A) s0 x xs id ids v raw : drawn pp s0 m (x :: xs) (id :: ids) (v :: raw) <-> pp x {| ac_seed := s0; ac_sample := id; ac_modality := m |} = Ok v /\ drawn pp s0 m xs ids raw.
Proof using Type.
  unfold drawn. cbn [length]. split.
  - intros (H1 & H2 & H3). split; [destruct (H3 0%nat x id eq_refl eq_refl) as (v' & [= <-] & H); exact H|]. split; [lia|]. split; [lia|]. intros i. exact (H3 (S i)).
  - intros (H & H1 & H2 & H3). split; [lia|]. split; [lia|]. intros [|i] y j; cbn [nth_error]; [intros [= <-] [= <-]; eauto|apply H3].
Qed.
Lemma drawn_nil (pp : pipeline X D A) s0 ids : drawn pp s0 m [] ids [].
Proof using Type. split; [reflexivity|]. split; [cbn; lia|]. intros [|i] x id; discriminate. Qed.
Lemma seen_drawn xs : forall ids vs, seen xs ids vs -> Forall (present two) vs /\ drawn p seed m xs ids (map vw vs) /\ drawn q seed m xs ids (map vs0 vs) /\ (two = true -> drawn q (seed + 1) m xs ids (map vs1 vs)).
Proof using Type.
  induction xs as [|x xs IH]; intros ids vs [L H].
  - cbn in H. inversion H; subst. split; [constructor|]. split; [apply drawn_nil|]. split; [apply drawn_nil|intros _; apply drawn_nil].
  - destruct ids as [|id ids]; [cbn in L; lia|]. cbn [combine] in H. inversion H as [|? v ? vs' G1 G2]; subst. cbn [fst snd] in G1. apply views_of_ok in G1 as (A1 & A2 & A3 & A4). unfold ctx in *. rewrite Z.add_0_r in *.
    destruct (IH ids vs') as (B1 & B2 & B3 & B4); [split; [cbn in L; lia|exact G2]|]. cbn [map]. split; [now constructor|]. split; [now apply drawn_cons|]. split; [now apply drawn_cons|]. intros T. apply drawn_cons. auto.
Qed.
Lemma drawn_seen xs : forall ids W S0 O, drawn p seed m xs ids W -> drawn q seed m xs ids S0 -> (if two then drawn q (seed + 1) m xs ids O else O = []) ->
  exists vs, seen xs ids vs /\ W = map vw vs /\ S0 = map vs0 vs /\ O = (if two then map vs1 vs else []).
Proof using Type.
  induction xs as [|x xs IH]; intros ids W S0 O HW HS HO.
  - destruct HW as (LW & _), HS as (LS & _). destruct W; [|discriminate]. destruct S0; [|discriminate]. exists []. split; [split; [cbn; lia|constructor]|]. split; [reflexivity|]. split; [reflexivity|]. destruct two; [|exact HO]. destruct HO as (LO & _). now destruct O.
  - destruct ids as [|id ids]; [destruct HW as (_ & L & _); cbn in L; lia|]. destruct W as [|w W]; [destruct HW as (L & _); discriminate|]. destruct S0 as [|s S0]; [destruct HS as (L & _); discriminate|].
    apply drawn_cons in HW as [W1 W2], HS as [S1 S2]. assert (ET : two = true \/ two = false) by (destruct two; auto). destruct ET as [ET|ET].
    + assert (HO' : drawn q (seed + 1) m (x :: xs) (id :: ids) O) by (rewrite ET in HO; exact HO). destruct O as [|z O]; [destruct HO' as (L & _); discriminate|]. apply drawn_cons in HO' as [O1 O2].
      destruct (IH ids W S0 O W2 S2) as (vs & [L F] & -> & -> & EO); [rewrite ET; exact O2|]. rewrite ET in EO. subst O. exists ((w, s, Some z) :: vs). split; [|split; [reflexivity|split; [reflexivity|rewrite ET; reflexivity]]].
      split; [cbn; lia|]. constructor; [|exact F]. cbn [fst snd]. apply views_of_ok. unfold present, ctx. rewrite Z.add_0_r. cbn. auto.
    + assert (HO' : O = []) by (rewrite ET in HO; exact HO). subst O. destruct (IH ids W S0 [] W2 S2) as (vs & [L F] & -> & -> & _); [rewrite ET; reflexivity|]. exists ((w, s, None) :: vs). split; [|split; [reflexivity|split; [reflexivity|rewrite ET; reflexivity]]].
      split; [cbn; lia|]. constructor; [|exact F]. cbn [fst snd]. apply views_of_ok. unfold present, ctx. rewrite Z.add_0_r. cbn. split; [exact ET|]. split; [exact W1|]. split; [exact S1|]. intros T. congruence.
Qed.
Lemma in_type_iff d raw rows : in_type cast d raw rows <-> rows = map (as_type d) raw.
Proof using Type.
  unfold in_type. split.
  - induction 1 as [|r v raw rows (E1 & E2 & E3 & E4) _ IH]; [reflexivity|]. cbn [map]. rewrite <- IH. f_equal. destruct v. unfold BaugModel.as_type. cbn in *. congruence.
  - intros ->. induction raw as [|r raw IH]; cbn [map]; constructor; [|exact IH]. repeat split.
Qed.
Lemma prealloc_iff v : prealloc v = true <-> allocated (vw v :: vs0 v :: match snd v with Some z => [z] | None => [] end).
Proof using Type.
  unfold prealloc, allocated. cbv zeta. rewrite orb_true_iff, !andb_true_iff, !kind_eqb_eq. split.
  - intros [[[H1 H2] H3]|[[H1 H2] H3]]; [exists KTorch|exists KNumpy]; (split; [discriminate|]); intros x [<-|[<-|Hx]]; auto; destruct (snd v); try (destruct Hx as [<-|[]]; now apply kind_eqb_eq); destruct Hx.
  - intros (k & NK & H). pose proof (H (vw v) (or_introl eq_refl)) as H1. pose proof (H (vs0 v) (or_intror (or_introl eq_refl))) as H2.
    assert (H3 : match snd v with Some z => kind_eqb (a_kind _ _ z) k | None => true end = true) by (destruct (snd v) as [z|]; [|reflexivity]; apply kind_eqb_eq, H; do 2 right; now left).
    destruct k; [right|left|contradiction]; auto.
Qed.
(* everything at once, for a first sample and the others *)
Definition heads (l : list arr) : list arr := firstn 1 l.
Definition alloc (W S0 O : list arr) : Prop := allocated (heads W ++ heads S0 ++ heads O).
Lemma whole_ok torch x r id ids res :
  (exists v c, views_of x id = Ok v /\ collect X D A cast p q two seed m r ids (first D A cast v) = Ok c /\ finish D A cast promote torch c = Ok res) <->
  exists W S0 O lw ls lo, res = (lw, ls, opt two lo) /\ (two = false -> O = []) /\ (torch = true -> alloc W S0 O) /\
    rows_of cast promote p seed m (x :: r) (id :: ids) (alloc W S0 O) W lw /\ rows_of cast promote q seed m (x :: r) (id :: ids) (alloc W S0 O) S0 ls /\
    (two = true -> rows_of cast promote q (seed + 1) m (x :: r) (id :: ids) (alloc W S0 O) O lo).
Proof using Type.
  assert (RT : forall v vs (f : view -> arr) (P : Prop), (prealloc v = true <-> P) -> forall d, row_type promote P (map f (v :: vs)) d <-> d = rows_type v f (v :: vs)).
  { intros v vs f P HP d. unfold row_type, rows_type. destruct (prealloc v).
    - pose proof (proj1 HP eq_refl) as PP. split; [intros [H _]; destruct (H PP) as (y & r' & E & ->); injection E as <- _; reflexivity|]. intros ->. split; [intros _; do 2 eexists; split; reflexivity|intros N; contradiction].
    - assert (NP : ~ P) by (intros H; apply HP in H; discriminate). split; [intros [_ H]; now apply H|]. intros ->. split; [intros H; contradiction|intros _; reflexivity]. }
  assert (AL : forall v vs, present two v -> (prealloc v = true <-> alloc (map vw (v :: vs)) (map vs0 (v :: vs)) (if two then map vs1 (v :: vs) else []))).
  { intros v vs P. rewrite prealloc_iff. unfold alloc, heads, present in *. destruct v as [[a b] o]. cbn [snd] in *. unfold vw, vs0, vs1. destruct o as [z|]; subst two; cbn [map firstn app fst snd]; reflexivity. }
  split.
  - intros (v & c & E1 & E2 & E3). apply collect_ok in E2 as (vs & SE & ->). assert (SA : seen (x :: r) (id :: ids) (v :: vs)) by (destruct SE as [L F]; split; [cbn; lia|constructor; [exact E1|exact F]]).
    destruct (seen_drawn _ _ _ SA) as (PA & D1 & D2 & D3). inversion PA as [|? ? P0 PV]; subst. apply (finish_ok torch two v vs res P0 PV) in E3 as ((A1 & A2 & A3) & TA & ->). pose proof (AL v vs P0) as AV.
    exists (map vw (v :: vs)), (map vs0 (v :: vs)), (if two then map vs1 (v :: vs) else []), (map (as_type (rows_type v vw (v :: vs))) (map vw (v :: vs))), (map (as_type (rows_type v vs0 (v :: vs))) (map vs0 (v :: vs))), (map (as_type (rows_type v vs1 (v :: vs))) (map vs1 (v :: vs))).
    split; [reflexivity|]. split; [intros ->; reflexivity|]. split; [intros ->; apply AV; destruct TA as [TA|TA]; [exact TA|discriminate]|].
    split; [split; [exact D1|split; [exact A1|exists (rows_type v vw (v :: vs)); split; [now apply (RT v vs vw)|now apply in_type_iff]]]|].
    split; [split; [exact D2|split; [exact A2|exists (rows_type v vs0 (v :: vs)); split; [now apply (RT v vs vs0)|now apply in_type_iff]]]|].
    intros T. rewrite T in *. split; [now apply D3|]. split; [now apply A3|]. exists (rows_type v vs1 (v :: vs)). split; [now apply (RT v vs vs1)|now apply in_type_iff].
  - intros (W & S0 & O & lw & ls & lo & -> & ON & TA & (D1 & A1 & dw & T1 & I1) & (D2 & A2 & ds & T2 & I2) & H3).
    destruct (drawn_seen (x :: r) (id :: ids) W S0 O D1 D2) as (vs & SE & -> & -> & EO); [destruct two; [apply H3; reflexivity|now apply ON]|]. destruct SE as [L F]. cbn [combine] in F. inversion F as [|? v ? vs' G1 G2]; subst vs. cbn [fst snd] in G1. subst.
    assert (SE : seen r ids vs') by (split; [cbn in L; lia|exact G2]). exists v, (fold_left (more D A cast) vs' (first D A cast v)). split; [exact G1|]. split; [apply collect_ok; eauto|].
    assert (SA : seen (x :: r) (id :: ids) (v :: vs')) by (split; [exact L|exact F]). destruct (seen_drawn _ _ _ SA) as (PA & _). inversion PA as [|? ? P0 PV]; subst. pose proof (AL v vs' P0) as AV.
    apply (RT v vs' vw _ AV) in T1. apply (RT v vs' vs0 _ AV) in T2. apply in_type_iff in I1, I2. subst. apply (finish_ok torch two v vs' _ P0 PV). split; [split; [exact A1|split; [exact A2|]]|split].
    + intros T. rewrite T in *. now apply H3.
    + destruct torch; [left; apply AV, TA; reflexivity|now right].
    + f_equal. destruct two; [|reflexivity]. cbn [opt]. destruct (H3 eq_refl) as (_ & _ & dz & T3 & I3). apply (RT v vs' vs1 _ AV) in T3. apply in_type_iff in I3. now subst.
Qed.
End Views.
Lemma drawn_unique {X D A} (p : pipeline X D A) seed m xs : forall ids a b, drawn p seed m xs ids a -> drawn p seed m xs ids b -> a = b.
Proof.
  induction xs as [|x xs IH]; intros ids a b Ha Hb.
  - destruct Ha as (La & _), Hb as (Lb & _). destruct a; [|discriminate]. destruct b; [reflexivity|discriminate].
  - destruct ids as [|id ids]; [destruct Ha as (_ & L & _); cbn in L; lia|]. destruct a as [|u a]; [destruct Ha as (L & _); discriminate|]. destruct b as [|v b]; [destruct Hb as (L & _); discriminate|].
    apply drawn_cons in Ha as [E1 Ha], Hb as [E2 Hb]. f_equal; [congruence|eapply IH; eassumption].
Qed.
Lemma allocated_dec {D A} (l : list (arr D A)) : allocated l \/ ~ allocated l.
Proof.
  destruct (forallb (fun x => kind_eqb (a_kind D A x) KNumpy) l) eqn:E1; [left; exists KNumpy; split; [discriminate|]; intros x Hx; rewrite forallb_forall in E1; now apply kind_eqb_eq, E1|].
  destruct (forallb (fun x => kind_eqb (a_kind D A x) KTorch) l) eqn:E2; [left; exists KTorch; split; [discriminate|]; intros x Hx; rewrite forallb_forall in E2; now apply kind_eqb_eq, E2|].
  right. intros (k & NK & H). destruct k; [| |contradiction]; [apply not_true_iff_false in E1; apply E1|apply not_true_iff_false in E2; apply E2]; apply forallb_forall; intros x Hx; now apply kind_eqb_eq, H.
Qed.
Lemma row_type_unique {D A} promote (l : list (arr D A)) (raw : list (arr D A)) d1 d2 : row_type promote (allocated l) raw d1 -> row_type promote (allocated l) raw d2 -> d1 = d2.
Proof.
  intros [A1 B1] [A2 B2]. destruct (allocated_dec l) as [H|H]; [|now rewrite (B1 H), (B2 H)]. destruct (A1 H) as (x & r & -> & ->), (A2 H) as (y & r' & E & ->). injection E as -> _. reflexivity.
Qed.
