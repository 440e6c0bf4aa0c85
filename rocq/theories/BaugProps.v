(* C134: the weak and strong views of the unlabelled examples.  C135: the augmentation plans of a benchmark. *)
From Coq Require Import String Lia QArith Qround.
From Coq Require Import ZifyBool ZifyNat.
From Verif Require Import Prelude ListFacts PyValue BaugModel BaugSpec BaugProofs.
Local Open Scope string_scope.
Local Open Scope Z_scope.
Local Open Scope list_scope.
Local Notation length := List.length.

(* ---- C135 *)
(* a plan is accepted exactly when it means something, and then gives these steps; everything else is a ValueError *)
Theorem C135_plan : forall o obj steps, plan_from_dict o obj = Ok steps <-> plan_means o obj steps.
Proof. exact plan_from_dict_iff. Qed.
Theorem C135_errors : forall o obj e, plan_from_dict o obj = Err e -> e = ValueError.
Proof. exact plan_from_dict_err. Qed.
(* a plan means at most one list of steps *)
Theorem C135_unique : forall o obj s1 s2, plan_means o obj s1 -> plan_means o obj s2 -> s1 = s2.
Proof. intros o obj s1 s2 H1 H2. apply plan_from_dict_iff in H1, H2. congruence. Qed.
(* a list of named steps written as a plan is read back *)
Theorem C135_written : forall o m steps, (forall s, In s steps -> fst s <> "") ->
  plan_from_dict o (PDict [("modality", m); ("steps", PList (map (fun s => PDict [("id", PStr (fst s)); ("params", PDict (snd s))]) steps))]) = Ok steps.
Proof.
  intros o m steps H. apply plan_from_dict_iff. eexists _, _. split; [reflexivity|]. split; [|split; [left; reflexivity|]].
  - intros k v [[= <- _]|[[= <- _]|[]]]; cbn; tauto.
  - induction steps as [|[op ps] r IH]; cbn [map]; [constructor|]. constructor; [|apply IH; intros s Hs; apply H; now right]. cbn [fst snd]. exists [("id", PStr op); ("params", PDict ps)].
    split; [reflexivity|]. split; [intros k v [[= <- _]|[[= <- _]|[]]]; cbn; tauto|]. split; [intros a b _; discriminate|]. pose proof (H (op, ps) (or_introl eq_refl)) as N. split; [exact N|].
    split; [|left; reflexivity]. exists (PStr op). split; [reflexivity|]. split; [|left; reflexivity]. cbn. destruct (String.eqb_spec op ""); [contradiction|reflexivity].
Qed.
(* finding: the modality a plan names is not read: it can contradict the one in use *)
Theorem C135_modality_refuted : forall o d m1 m2, plan_from_dict o (PDict (("modality", m1) :: d)) = plan_from_dict o (PDict (("modality", m2) :: d)).
Proof. reflexivity. Qed.
Example toy : Oracle. Proof. exact {| parse_int := fun _ => None; parse_float := fun _ => None; show := fun _ => "0" |}. Defined.
Example C135_case : plan_from_dict toy (PDict [("steps", PList [PDict [("id", PStr "a")]; PDict [("op_id", PStr "b"); ("params", PNone)]; PDict [("id", PStr ""); ("op_id", PStr "")]])]) = Err ValueError /\
  plan_from_dict toy (PDict [("steps", PList [PDict [("id", PStr "a")]; PDict [("op_id", PStr "b"); ("params", PNone)]])]) = Ok [("a", []); ("b", [])].
Proof. split; reflexivity. Qed.

(* ---- C134 *)
Section C134.
Variables X D A : Type.
Variable cast : D -> A -> A.
Variable promote : list D -> D.
Variable build : option string -> list (string * pydict) -> result (pipeline X D A).
Notation run := (run X D A cast promote build).
Notation arr := (arr D A).
(* the numbers of the samples *)
Definition numbers (ids : option (list Z)) (n : nat) : list Z := match ids with Some l => l | None => arange (Z.of_nat n) end.
Definition first_of (l : list arr) : list arr := firstn 1 l.
(* a run over at least one sample: when it returns, and exactly what *)
Lemma run_rows : forall o torch xs wplan splan seed mode m ids n a b c, xs <> [] ->
  (run o (URows X torch xs) wplan splan seed mode m ids n = Ok (a, b, c) <->
   mode = "fixed" /\ (n = 1 \/ n = 2) /\ exists wsteps ssteps weak strong,
     plan_means o wplan wsteps /\ plan_means o splan ssteps /\ build m wsteps = Ok weak /\ build m ssteps = Ok strong /\
     exists W S0 S1 lw ls ls1, a = VRows D A lw /\ b = VRows D A ls /\ c = (if n =? 2 then Some (VRows D A ls1) else None) /\ (n = 1 -> S1 = []) /\
       let together := allocated (first_of W ++ first_of S0 ++ first_of S1) in (torch = true -> together) /\
       rows_of cast promote weak seed m xs (numbers ids (length xs)) together W lw /\ rows_of cast promote strong seed m xs (numbers ids (length xs)) together S0 ls /\
       (n = 2 -> rows_of cast promote strong (seed + 1) m xs (numbers ids (length xs)) together S1 ls1)).
Proof using Type.
  intros o torch xs wplan splan seed mode m ids n a b c NE. unfold BaugModel.run. destruct (String.eqb_spec mode "fixed") as [->|NM]; cbn [negb]; [|split; [discriminate|intros [H _]; contradiction]].
  destruct ((n =? 1) || (n =? 2)) eqn:EN; cbn [negb]; [|split; [discriminate|intros (_ & H & _); lia]]. assert (HN : n = 1 \/ n = 2) by lia. clear EN. cbv zeta. destruct xs as [|x r]; [contradiction|].
  destruct (plan_from_dict o wplan) as [wsteps|] eqn:E1; cbn [bind]; [|split; [discriminate|intros (_ & _ & ws & ss & w & s & H & _); apply plan_from_dict_iff in H; congruence]].
  destruct (plan_from_dict o splan) as [ssteps|] eqn:E2; cbn [bind]; [|split; [discriminate|intros (_ & _ & ws & ss & w & s & _ & H & _); apply plan_from_dict_iff in H; congruence]].
  destruct (build m wsteps) as [weak|] eqn:E3; cbn [bind]; [|split; [discriminate|intros (_ & _ & ws & ss & w & s & H & _ & G & _); apply plan_from_dict_iff in H; congruence]].
  destruct (build m ssteps) as [strong|] eqn:E4; cbn [bind]; [|split; [discriminate|intros (_ & _ & ws & ss & w & s & _ & H & _ & G & _); apply plan_from_dict_iff in H; congruence]].
  change (match ids with Some l => l | None => arange (lenZ (x :: r)) end) with (numbers ids (length (x :: r))).
  assert (UNI : forall P : _ -> _ -> Prop, (exists wsteps ssteps weak strong, plan_means o wplan wsteps /\ plan_means o splan ssteps /\ build m wsteps = Ok weak /\ build m ssteps = Ok strong /\ P weak strong) <-> P weak strong).
  { intros P. split.
    - intros (ws & ss & w & s & H1 & H2 & H3 & H4 & H5). apply plan_from_dict_iff in H1, H2. rewrite E1 in H1. rewrite E2 in H2. injection H1 as <-. injection H2 as <-. rewrite E3 in H3. rewrite E4 in H4. injection H3 as <-. injection H4 as <-. exact H5.
    - intros H. exists wsteps, ssteps, weak, strong. rewrite <- !plan_from_dict_iff. auto. }
  rewrite (UNI (fun weak strong => exists W S0 S1 lw ls ls1, a = VRows D A lw /\ b = VRows D A ls /\ c = (if n =? 2 then Some (VRows D A ls1) else None) /\ (n = 1 -> S1 = []) /\
       (torch = true -> allocated (first_of W ++ first_of S0 ++ first_of S1)) /\
       rows_of cast promote weak seed m (x :: r) (numbers ids (length (x :: r))) (allocated (first_of W ++ first_of S0 ++ first_of S1)) W lw /\ rows_of cast promote strong seed m (x :: r) (numbers ids (length (x :: r))) (allocated (first_of W ++ first_of S0 ++ first_of S1)) S0 ls /\
       (n = 2 -> rows_of cast promote strong (seed + 1) m (x :: r) (numbers ids (length (x :: r))) (allocated (first_of W ++ first_of S0 ++ first_of S1)) S1 ls1))). clear UNI.
  destruct (numbers ids (length (x :: r))) as [|id l].
  { split; [discriminate|]. intros (_ & _ & W & S0 & S1 & lw & ls & ls1 & _ & _ & _ & _ & _ & ((_ & L & _) & _) & _). cbn in L. lia. }
  assert (T2 : (1 <? n) = (n =? 2)) by lia. rewrite T2.
  pose proof (fun res => whole_ok cast promote weak strong (n =? 2) seed m torch x r id l res) as WO. unfold alloc, heads in WO. unfold first_of.
  split.
  - intros E. split; [reflexivity|]. split; [exact HN|]. destruct (views_of X D A weak strong (n =? 2) seed m x id) as [v|] eqn:EV; cbn [bind] in E; [|discriminate].
    destruct (collect X D A cast weak strong (n =? 2) seed m r l (first D A cast v)) as [cc|] eqn:EC; cbn [bind] in E; [|discriminate].
    destruct (finish D A cast promote torch cc) as [[[lw ls] ls1]|] eqn:EF; cbn [bind] in E; [|discriminate].
    injection E as <- <- <-. destruct (proj1 (WO (lw, ls, ls1))) as (W & S0 & S1 & lw' & ls' & lo & [= -> -> ->] & H1 & H2 & H3 & H4 & H5); [exists v, cc; auto|].
    exists W, S0, S1, lw', ls', lo. split; [reflexivity|]. split; [reflexivity|]. split; [unfold opt; destruct (n =? 2); reflexivity|]. split; [intros N1; apply H1; lia|]. split; [exact H2|]. split; [exact H3|]. split; [exact H4|]. intros N2. apply H5. lia.
  - intros (_ & _ & W & S0 & S1 & lw & ls & lo & -> & -> & -> & H1 & H2 & H3 & H4 & H5).
    destruct (proj2 (WO (lw, ls, opt (n =? 2) lo))) as (v & cc & -> & EC & EF).
    + exists W, S0, S1, lw, ls, lo. split; [reflexivity|]. split; [intros; apply H1; lia|]. split; [exact H2|]. split; [exact H3|]. split; [exact H4|]. intros; apply H5; lia.
    + cbn [bind]. rewrite EC. cbn [bind]. rewrite EF. cbn [bind]. unfold opt. destruct (n =? 2); reflexivity.
Qed.
End C134.
Theorem C134_run : forall X D A cast promote build o torch xs wplan splan seed mode m ids n a b c, xs <> [] ->
  (run X D A cast promote build o (URows X torch xs) wplan splan seed mode m ids n = Ok (a, b, c) <->
   mode = "fixed" /\ (n = 1 \/ n = 2) /\ exists wsteps ssteps weak strong,
     plan_means o wplan wsteps /\ plan_means o splan ssteps /\ build m wsteps = Ok weak /\ build m ssteps = Ok strong /\
     exists W S0 S1 lw ls ls1, a = VRows D A lw /\ b = VRows D A ls /\ c = (if n =? 2 then Some (VRows D A ls1) else None) /\ (n = 1 -> S1 = []) /\
       let together := allocated (firstn 1 W ++ firstn 1 S0 ++ firstn 1 S1) in (torch = true -> together) /\
       rows_of cast promote weak seed m xs (numbers ids (length xs)) together W lw /\ rows_of cast promote strong seed m xs (numbers ids (length xs)) together S0 ls /\
       (n = 2 -> rows_of cast promote strong (seed + 1) m xs (numbers ids (length xs)) together S1 ls1)).
Proof. exact run_rows. Qed.
(* when all results have one element type the rows are the results themselves: a row depends only on its sample, its number
   and the seed *)
Theorem C134_exact : forall X D A cast promote p seed m xs ids (firsts : list (arr D A)) raw rows d,
  @rows_of X D A cast promote p seed m xs ids (allocated firsts) raw rows -> raw <> [] -> (forall k, (0 < k)%nat -> promote (repeat d k) = d) ->
  (forall v, In v raw -> a_dtype D A v = d /\ cast d (a_data D A v) = a_data D A v) -> rows = raw.
Proof.
  intros X D A cast promote p seed m xs ids firsts raw rows d (_ & _ & t & RT & IT) NE PR HT. pose proof (allocated_dec firsts) as DEC. apply in_type_iff in IT. subst rows.
  assert (E : t = d).
  { destruct RT as [R1 R2]. destruct DEC as [H|H].
    - destruct (R1 H) as (x & r & -> & ->). apply HT. now left.
    - rewrite (R2 H). replace (map (a_dtype D A) raw) with (repeat d (length raw)); [apply PR; destruct raw; [contradiction|cbn; lia]|].
      clear R1 R2 PR NE. induction raw as [|x r IH]; [reflexivity|]. cbn. rewrite (proj1 (HT x (or_introl eq_refl))). f_equal. apply IH. intros v Hv. apply HT. now right. }
  subst t. rewrite <- (map_id raw) at 2. apply map_ext_in. intros v Hv. destruct (HT v Hv) as [E1 E2]. unfold as_type. rewrite E2. destruct v. cbn in *. now subst.
Qed.
(* one graph: each view is its pipeline applied to the graph, the second strong view with the next seed *)
Theorem C134_graph : forall X D A cast promote build o g wplan splan seed ids n a b c,
  run X D A cast promote build o (UGraph X g) wplan splan seed "fixed" (Some "graph") ids n = Ok (a, b, c) <->
  (n = 1 \/ n = 2) /\ exists wsteps ssteps weak strong xw xs,
    plan_means o wplan wsteps /\ plan_means o splan ssteps /\ build (Some "graph") wsteps = Ok weak /\ build (Some "graph") ssteps = Ok strong /\
    (let ctx k := {| ac_seed := seed + k; ac_sample := hd 0 (numbers ids 1); ac_modality := Some "graph" |} in
     weak g (ctx 0) = Ok xw /\ strong g (ctx 0) = Ok xs /\ a = VOne D A xw /\ b = VOne D A xs /\
     (n = 1 -> c = None) /\ (n = 2 -> exists xs1, strong g (ctx 1) = Ok xs1 /\ c = Some (VOne D A xs1))).
Proof.
  intros X D A cast promote build o g wplan splan seed ids n a b c. unfold run. cbn [String.eqb Ascii.eqb Bool.eqb negb is_graph]. cbv zeta.
  destruct ((n =? 1) || (n =? 2)) eqn:EN; cbn [negb]; [|split; [discriminate|intros (H & _); lia]]. assert (HN : n = 1 \/ n = 2) by lia. clear EN.
  set (id := match ids with Some (i :: _) => i | _ => 0 end). assert (EI : hd 0 (numbers ids 1) = id) by (unfold numbers, id; destruct ids as [[|i l]|]; reflexivity). rewrite EI. split.
  - intros E. split; [exact HN|]. destruct (plan_from_dict o wplan) as [wsteps|] eqn:E1; cbn [bind] in E; [|discriminate]. destruct (plan_from_dict o splan) as [ssteps|] eqn:E2; cbn [bind] in E; [|discriminate].
    destruct (build (Some "graph") wsteps) as [weak|] eqn:E3; cbn [bind] in E; [|discriminate]. destruct (build (Some "graph") ssteps) as [strong|] eqn:E4; cbn [bind] in E; [|discriminate].
    destruct (views_of X D A weak strong (1 <? n) seed (Some "graph") g id) as [v|] eqn:EV; cbn [bind] in E; [|discriminate]. apply views_of_ok in EV as (P & V1 & V2 & V3). destruct v as [[xw xs] xo]. injection E as <- <- <-.
    apply plan_from_dict_iff in E1, E2. exists wsteps, ssteps, weak, strong, xw, xs. split; [exact E1|]. split; [exact E2|]. split; [exact E3|]. split; [exact E4|]. split; [exact V1|]. split; [exact V2|]. split; [reflexivity|]. split; [reflexivity|].
    unfold present in P. cbn [snd] in P. unfold vs1 in V3. cbn [fst snd] in V3. destruct xo as [z|]; (split; [intros N1|intros N2]); try lia; [|reflexivity]. exists z. split; [apply V3; lia|reflexivity].
  - intros (_ & wsteps & ssteps & weak & strong & xw & xs & E1 & E2 & E3 & E4 & V1 & V2 & -> & -> & C1 & C2). apply plan_from_dict_iff in E1, E2. rewrite E1. cbn [bind]. rewrite E2. cbn [bind]. rewrite E3. cbn [bind]. rewrite E4. cbn [bind].
    rewrite Z.add_0_r in *. unfold views_of. rewrite V1. cbn [bind]. rewrite V2. cbn [bind]. destruct HN as [-> | ->]; cbn [Z.ltb Z.compare Pos.compare Pos.compare_cont].
    + rewrite (C1 eq_refl). reflexivity.
    + destruct (C2 eq_refl) as (z & -> & ->). reflexivity.
Qed.
(* a graph is augmented only under the modality graph *)
Theorem C134_other : forall X D A cast promote build o g wplan splan seed mode m ids n r,
  run X D A cast promote build o (UGraph X g) wplan splan seed mode m ids n = Ok r -> m = Some "graph".
Proof.
  intros X D A cast promote build o g wplan splan seed mode m ids n r E. unfold run in E. destruct (negb _) in E; [discriminate|]. destruct (negb _) in E; [discriminate|]. cbv zeta in E.
  destruct m as [s|]; cbn [is_graph] in E; [destruct (String.eqb_spec s "graph") as [->|]; [reflexivity|]|]; destruct (plan_from_dict o wplan); cbn [bind] in E; try discriminate; destruct (plan_from_dict o splan); discriminate.
Qed.
(* nothing to augment: the input comes back *)
Theorem C134_empty : forall X D A cast promote build o torch wplan splan seed m ids n, n = 1 \/ n = 2 ->
  run X D A cast promote build o (UNone X) wplan splan seed "fixed" m ids n = Ok (VNone D A, VNone D A, None) /\
  run X D A cast promote build o (URows X torch []) wplan splan seed "fixed" m ids n = Ok (VSame D A, VSame D A, if n =? 2 then Some (VSame D A) else None).
Proof. intros X D A cast promote build o torch wplan splan seed m ids n [-> | ->]; split; reflexivity. Qed.

(* ---- findings, on arrays of integers (true) and rationals (false) *)
Definition floorQ (d : bool) (x : Q) : Q := if d then inject_Z (Qfloor x) else x.
Definition widest (l : list bool) : bool := forallb (fun d => d) l.
Definition num (k : kind) (d : bool) (sh : list Z) (x : Q) : arr bool Q := {| a_kind := k; a_shape := sh; a_dtype := d; a_data := x |}.
(* every plan builds the pipeline f *)
Definition always (f : pipeline Z bool Q) : option string -> list (string * pydict) -> result (pipeline Z bool Q) := fun _ _ => Ok f.
Definition no_steps : pyval := PDict [].
(* finding: an invalid plan goes unnoticed when there is nothing to augment *)
Theorem C134_unchecked_refuted : forall X D A cast promote build o torch seed m, plan_from_dict o (PStr "oops") = Err ValueError /\
  run X D A cast promote build o (URows X torch []) (PStr "oops") (PStr "oops") seed "fixed" m None 1 = Ok (VSame D A, VSame D A, None).
Proof. intros. split; reflexivity. Qed.
(* finding: the lists kept for results of different shapes are never returned: such results always raise *)
Theorem C134_ragged_refuted : forall X D A cast promote build o torch xs wplan splan seed m ids n r, xs <> [] ->
  run X D A cast promote build o (URows X torch xs) wplan splan seed "fixed" m ids n = Ok r ->
  exists lw ls, fst r = (VRows D A lw, VRows D A ls) /\ agree lw /\ agree ls.
Proof.
  intros X D A cast promote build o torch xs wplan splan seed m ids n [[a b] c] NE E. apply C134_run in E as (_ & _ & ws & ss & w & s & _ & _ & _ & _ & W & S0 & S1 & lw & ls & ls1 & -> & -> & _ & _ & _ & (_ & A1 & d1 & _ & I1) & (_ & A2 & d2 & _ & I2) & _); [|exact NE].
  exists lw, ls. apply in_type_iff in I1, I2. subst. split; [reflexivity|]. split; [apply (agree_shapes W)|apply (agree_shapes S0)]; try assumption; symmetry; apply as_type_shape.
Qed.
(* finding: the element type of the first result is forced on the others: values are truncated *)
Theorem C134_dtype_refuted : exists f, f 1 {| ac_seed := 0; ac_sample := 1; ac_modality := None |} = Ok (num KNumpy false [] (1 # 2)) /\
  exists r0 r1, run Z bool Q floorQ widest (always f) toy (URows Z false [0; 1]) no_steps no_steps 0 "fixed" None None 1 = Ok (VRows _ _ [r0; r1], VRows _ _ [r0; r1], None) /\ (a_data _ _ r1 == 0)%Q.
Proof.
  exists (fun x _ => Ok (num KNumpy (x =? 0) [] (inject_Z x / 2))). split; [reflexivity|]. do 2 eexists. split; [reflexivity|]. reflexivity.
Qed.
(* finding: weak and strong view share the generator: with equal plans they are equal *)
Theorem C134_same_plan_refuted : forall X D A cast promote build o xu plan seed mode m ids n a b c,
  run X D A cast promote build o xu plan plan seed mode m ids n = Ok (a, b, c) -> a = b.
Proof.
  intros X D A cast promote build o xu plan seed mode m ids n a b c E. destruct xu as [|g|torch [|x r]].
  - unfold run in E. destruct (negb _) in E; [discriminate|]. destruct (negb _) in E; [discriminate|]. congruence.
  - unfold run in E. destruct (negb _) in E; [discriminate|]. destruct (negb _) in E; [discriminate|]. cbv zeta in E. destruct (plan_from_dict o plan) as [st|]; cbn [bind] in E; [|destruct (is_graph m); discriminate]. destruct (is_graph m); [|discriminate].
    destruct (build m st) as [w|]; cbn [bind] in E; [|discriminate]. unfold views_of in E. destruct (w g _) as [v|] in E; cbn [bind] in E; [|discriminate].
    destruct (1 <? n); [destruct (w g _) as [v1|] in E; cbn [bind] in E; [|discriminate]|]; cbn [bind] in E; congruence.
  - unfold run in E. destruct (negb _) in E; [discriminate|]. destruct (negb _) in E; [discriminate|]. cbv zeta in E. congruence.
  - apply C134_run in E as (_ & _ & ws & ss & w & s & P1 & P2 & B1 & B2 & W & S0 & S1 & lw & ls & ls1 & -> & -> & _ & _ & _ & (D1 & A1 & d1 & T1 & I1) & (D2 & A2 & d2 & T2 & I2) & _); [|discriminate].
    apply plan_from_dict_iff in P1, P2. rewrite P1 in P2. injection P2 as <-. rewrite B1 in B2. injection B2 as <-.
    pose proof (drawn_unique _ _ _ _ _ _ _ D1 D2) as <-. pose proof (row_type_unique _ _ _ _ _ T1 T2) as <-. apply in_type_iff in I1, I2. now subst.
Qed.
(* finding: the second strong view of a seed is the first strong view of the next seed *)
Theorem C134_next_seed_refuted : forall X D A cast promote build o torch xs wplan splan seed m ids n a b c a' b' c', xs <> [] ->
  run X D A cast promote build o (URows X torch xs) wplan splan seed "fixed" m ids 2 = Ok (a, b, c) ->
  run X D A cast promote build o (URows X torch xs) wplan splan (seed + 1) "fixed" m ids n = Ok (a', b', c') ->
  exists raw d d' l l', c = Some (VRows D A l) /\ b' = VRows D A l' /\ in_type cast d raw l /\ in_type cast d' raw l'.
Proof.
  intros X D A cast promote build o torch xs wplan splan seed m ids n a b c a' b' c' NE E1 E2.
  apply C134_run in E1 as (_ & _ & ws & ss & w & s & _ & P2 & _ & B2 & W & S0 & S1 & lw & ls & ls1 & _ & _ & -> & _ & _ & _ & _ & H3); [|exact NE].
  apply C134_run in E2 as (_ & _ & ws' & ss' & w' & s' & _ & P2' & _ & B2' & W' & S0' & S1' & lw' & ls' & ls1' & _ & -> & _ & _ & _ & _ & (D2 & _ & d2 & _ & I2) & _); [|exact NE].
  apply plan_from_dict_iff in P2, P2'. rewrite P2 in P2'. injection P2' as <-. rewrite B2 in B2'. injection B2' as <-. destruct (H3 eq_refl) as (D3 & _ & d3 & _ & I3). pose proof (drawn_unique _ _ _ _ _ _ _ D2 D3) as <-.
  exists S0', d3, d2, ls1, ls'. auto.
Qed.
(* a run with results that depend on the sample, its number and the seed; the numbers are given *)
Definition sum_view : pipeline Z bool Q := fun x c => Ok (num KNumpy true [2] (inject_Z (100 * x + 10 * ac_sample c + ac_seed c))).
Example C134_case : run Z bool Q floorQ widest (always sum_view) toy (URows Z false [3; 4]) no_steps no_steps 7 "fixed" None (Some [5; 6; 9]) 2 =
  Ok (VRows _ _ [num KNumpy true [2] 357; num KNumpy true [2] 467], VRows _ _ [num KNumpy true [2] 357; num KNumpy true [2] 467], Some (VRows _ _ [num KNumpy true [2] 358; num KNumpy true [2] 468])) /\
  run Z bool Q floorQ widest (always (fun x c => Ok (num KNumpy true [x] 1))) toy (URows Z false [3; 4]) no_steps no_steps 7 "fixed" None None 1 = Err ValueError /\
  run Z bool Q floorQ widest (always sum_view) toy (URows Z false [3; 4]) no_steps no_steps 7 "fixed" None (Some [5]) 1 = Err IndexError.
Proof. split; [|split]; reflexivity. Qed.

Print Assumptions C135_plan.
Print Assumptions C135_errors.
Print Assumptions C135_unique.
Print Assumptions C135_written.
Print Assumptions C135_modality_refuted.
Print Assumptions C134_run.
Print Assumptions C134_exact.
Print Assumptions C134_graph.
Print Assumptions C134_other.
Print Assumptions C134_empty.
Print Assumptions C134_unchecked_refuted.
Print Assumptions C134_ragged_refuted.
Print Assumptions C134_dtype_refuted.
Print Assumptions C134_same_plan_refuted.
Print Assumptions C134_next_seed_refuted.
