(* Proofs about graph search, maximum flows and minimum cuts. *)
From Coq Require Import QArith Qabs Qround Lqa Relations ZifyBool ZifyNat.
From Verif Require Import Prelude ListFacts SampleServiceProofs SamplingSpec TransModel TransProofs TransSolveProofs MincutModel MincutSpec.
Local Open Scope Z_scope.
Local Open Scope list_scope.

(* ---------------------------------------------------------------- sums *)
Lemma sumZ_ext {A} (f g : A -> Z) l : (forall x, In x l -> f x = g x) -> sumZ (map f l) = sumZ (map g l).
Proof. intros H. induction l as [|a l IH]; [reflexivity|]. cbn. rewrite (H a (or_introl eq_refl)), IH; [reflexivity|]. intros x Hx. apply H. right. exact Hx. Qed.
Lemma sumZ_le {A} (f g : A -> Z) l : (forall x, In x l -> f x <= g x) -> sumZ (map f l) <= sumZ (map g l).
Proof. intros H. induction l as [|a l IH]; cbn; [lia|]. assert (H1 := H a (or_introl eq_refl)). assert (H2 := IH (fun x Hx => H x (or_intror Hx))). lia. Qed.
Lemma sumZ_plus {A} (f g : A -> Z) l : sumZ (map (fun x => f x + g x) l) = sumZ (map f l) + sumZ (map g l).
Proof. induction l; cbn; lia. Qed.
Lemma sumZ_opp {A} (f : A -> Z) l : sumZ (map (fun x => - f x) l) = - sumZ (map f l).
Proof. induction l; cbn; lia. Qed.
Lemma sumZ_zero {A} (f : A -> Z) l : (forall x, In x l -> f x = 0) -> sumZ (map f l) = 0.
Proof. intros H. induction l as [|a l IH]; cbn; [reflexivity|]. rewrite (H a (or_introl eq_refl)), IH; [reflexivity|]. intros x Hx. apply H. right. exact Hx. Qed.
Lemma sumZ_swap {A B} (f : A -> B -> Z) la lb : sumZ (map (fun a => sumZ (map (f a) lb)) la) = sumZ (map (fun b => sumZ (map (fun a => f a b) la)) lb).
Proof. induction la as [|a la IH]; cbn; [symmetry; apply sumZ_zero; reflexivity|]. rewrite IH. rewrite <- sumZ_plus. reflexivity. Qed.
Lemma sumZ_filter {A} (f : A -> Z) (b : A -> bool) l : sumZ (map f (filter b l)) = sumZ (map (fun x => if b x then f x else 0) l).
Proof. induction l as [|a l IH]; cbn; [reflexivity|]. destruct (b a); cbn; lia. Qed.
Lemma sumZ_pick (f : nat -> Z) i l : NoDup l -> In i l -> sumZ (map (fun j => if Nat.eqb j i then f j else 0) l) = f i.
Proof.
  induction l as [|a l IH]; intros Hn Hi; [destruct Hi|]. inversion Hn as [|? ? Ha Hn']; subst. cbn. destruct Hi as [->|Hi].
  - rewrite Nat.eqb_refl. rewrite sumZ_zero; [lia|]. intros x Hx. destruct (Nat.eqb_spec x i) as [->|]; [contradiction|reflexivity].
  - rewrite (IH Hn' Hi). destruct (Nat.eqb_spec a i) as [->|]; [contradiction|lia].
Qed.
Lemma sumZ_nonneg_map {A} (f : A -> Z) l : (forall x, In x l -> 0 <= f x) -> 0 <= sumZ (map f l).
Proof. intros H. apply sumZ_nonneg. apply Forall_forall. intros x Hx. apply in_map_iff in Hx as (a & <- & Ha). apply H, Ha. Qed.
Lemma sumZ_member {A} (f : A -> Z) l a : (forall x, In x l -> 0 <= f x) -> In a l -> f a <= sumZ (map f l).
Proof. intros H Ha. induction l as [|x l IH]; [destruct Ha|]. cbn. destruct Ha as [->|Ha]; [assert (H0 := sumZ_nonneg_map f l (fun y Hy => H y (or_intror Hy))); lia|]. assert (H1 := IH (fun y Hy => H y (or_intror Hy)) Ha). assert (H0 := H x (or_introl eq_refl)). lia. Qed.

(* ---------------------------------------------------------------- the search *)
Section SearchProofs.
Variable R : nat -> nat -> Z.
Variable ind : nat -> list nat.
Variable N : nat.
Hypothesis Hin : forall u v, In v (ind u) -> (v < N)%nat.
Hypothesis Hall : forall u v, (v < N)%nat -> R u v > 0 -> In v (ind u).
Definition unvisited (vis : list bool) : nat := List.length (filter negb vis).
Definition marked (vis : list bool) (v : nat) : Prop := nth v vis false = true.
Lemma marked_lt vis v : marked vis v -> (v < List.length vis)%nat.
Proof. unfold marked. intros H. destruct (Nat.lt_ge_cases v (List.length vis)) as [|Hge]; [assumption|]. rewrite nth_overflow in H by lia. discriminate. Qed.
Lemma mark_spec vis v w : (v < List.length vis)%nat -> marked (update vis v (fun _ => true)) w <-> w = v \/ marked vis w.
Proof. intros Hv. unfold marked. rewrite update_nth by exact Hv. destruct (Nat.eqb_spec w v) as [->|]; [tauto|]. split; [tauto|]. intros [|]; [contradiction|assumption]. Qed.
Lemma mark_count vis v : (v < List.length vis)%nat -> nth v vis false = false -> S (unvisited (update vis v (fun _ => true))) = unvisited vis.
Proof.
  unfold unvisited. revert v. induction vis as [|b vis IH]; intros [|v] Hv H; cbn in *; try lia.
  - subst b. cbn. reflexivity.
  - destruct b; cbn; rewrite <- (IH v) by (try lia; assumption); reflexivity.
Qed.
Lemma scan_spec u : forall vs vis st vis' st', (forall v, In v vs -> (v < N)%nat) -> List.length vis = N -> scan R u vs vis st = (vis', st') ->
  List.length vis' = N /\ (List.length st' + unvisited vis' = List.length st + unvisited vis)%nat /\
  (forall w, marked vis' w <-> marked vis w \/ (In w vs /\ R u w > 0)) /\
  (forall w, In w st' <-> In w st \/ (marked vis' w /\ ~ marked vis w)).
Proof.
  induction vs as [|v vs IH]; intros vis st vis' st' Hv Hl H; cbn [scan] in H.
  - injection H as <- <-. split; [exact Hl|]. split; [reflexivity|]. split; [intros w; split; [auto|intros [|[[] _]]; assumption]|]. intros w. split; [auto|]. intros [|[]]; [assumption|contradiction].
  - assert (Hvn : (v < List.length vis)%nat) by (rewrite Hl; apply Hv; left; reflexivity). destruct ((R u v >? 0) && negb (nth v vis false)) eqn:E.
    + apply andb_prop in E as [E1 E2]. assert (E3 : nth v vis false = false) by (destruct (nth v vis false); [discriminate|reflexivity]).
      apply IH in H; [|intros w Hw; apply Hv; right; exact Hw|rewrite update_length; exact Hl]. destruct H as (H1 & H2 & H3 & H4).
      assert (Hc := mark_count vis v Hvn E3). split; [exact H1|]. split; [cbn [List.length] in H2; lia|]. split.
      * intros w. rewrite H3, (mark_spec vis v w Hvn). split; [intros [[->|]|[]]; [right; split; [left; reflexivity|lia]|left; assumption|right; split; [right; assumption|assumption]]|].
        intros [|[[<-|] ?]]; [left; right; assumption|left; left; reflexivity|right; split; assumption].
      * intros w. rewrite H4, (mark_spec vis v w Hvn). cbn [In]. split.
        -- intros [[<-|]|[Hm Hn]]; [right; split; [apply H3; left; apply mark_spec; [exact Hvn|left; reflexivity]|unfold marked; congruence]|left; assumption|right; split; [assumption|tauto]].
        -- intros [|[Hm Hn]]; [left; right; assumption|]. destruct (Nat.eq_dec w v) as [->|Hne]; [left; left; reflexivity|]. right. split; [assumption|]. intros [|]; [contradiction|contradiction].
    + apply IH in H; [|intros w Hw; apply Hv; right; exact Hw|exact Hl]. destruct H as (H1 & H2 & H3 & H4). split; [exact H1|]. split; [exact H2|]. split; [|exact H4].
      intros w. rewrite H3. split; [intros [|[]]; [left; assumption|right; split; [right; assumption|assumption]]|]. intros [|[[<-|] HR]]; [left; assumption| |right; split; assumption].
      left. unfold marked. destruct (nth v vis false); [reflexivity|]. cbn in E. lia.
Qed.
Lemma search_spec s : forall fuel vis st, List.length vis = N -> (List.length st + unvisited vis < fuel)%nat -> marked vis s ->
  (forall v, In v st -> marked vis v) -> (forall v, marked vis v -> reaches N R s v) ->
  (forall u, marked vis u -> ~ In u st -> forall v, (v < N)%nat -> R u v > 0 -> marked vis v) ->
  exists vis', search R ind fuel vis st = Ok vis' /\ List.length vis' = N /\ forall v, marked vis' v <-> reaches N R s v.
Proof.
  induction fuel as [|fuel IH]; intros vis st Hl Hf Hs Hst Hre Hcl; [lia|]. cbn [search]. destruct st as [|u st].
  - exists vis. split; [reflexivity|]. split; [exact Hl|]. intros v. split; [apply Hre|]. intros Hr. apply clos_rt_rtn1 in Hr. induction Hr as [|x z Hxz _ IHr]; [exact Hs|]. destruct Hxz as (H1 & H2 & H3). apply (Hcl x); auto.
  - destruct (scan R u (ind u) vis st) as [vis' st'] eqn:E. destruct (scan_spec u _ _ _ _ _ (Hin u) Hl E) as (H1 & H2 & H3 & H4). cbn [List.length] in Hf.
    assert (Hu : marked vis u) by (apply Hst; left; reflexivity).
    apply IH.
    + exact H1.
    + lia.
    + apply H3. left. exact Hs.
    + intros v Hv. apply H4 in Hv as [Hv|[Hv _]]; [apply H3; left; apply Hst; right; exact Hv|exact Hv].
    + intros v Hv. apply H3 in Hv as [Hv|[Hv HR]]; [apply Hre, Hv|]. eapply rt_trans; [apply Hre, Hu|]. apply rt_step. split; [rewrite <- Hl; apply marked_lt, Hu|]. split; [apply (Hin u), Hv|exact HR].
    + intros x Hx Hnx v Hv HR. apply H3. destruct (Nat.eq_dec x u) as [->|Hne]; [right; split; [apply Hall; assumption|exact HR]|].
      left. assert (Hxv : marked vis x).
      { destruct (nth x vis false) eqn:Ex; [exact Ex|]. exfalso. apply Hnx, H4. right. split; [exact Hx|]. unfold marked. congruence. }
      apply (Hcl x Hxv); [|exact Hv|exact HR]. intros [->|Hin']; [contradiction|]. apply Hnx, H4. left. exact Hin'.
Qed.
Lemma reachable_spec s : (s < N)%nat -> exists vis, reachable R ind N s = Ok vis /\ List.length vis = N /\ forall v, marked vis v <-> reaches N R s v.
Proof.
  intros Hs. unfold reachable. assert (Hl : List.length (repeat false N) = N) by apply repeat_length. assert (Hsl : (s < List.length (repeat false N))%nat) by lia.
  assert (Hf : forall v, nth v (repeat false N) false = false).
  { intros v. destruct (nth_In_or_default (repeat false N) v false) as [H|H]; [apply repeat_spec in H; exact H|exact H]. }
  assert (Hm : forall v, marked (update (repeat false N) s (fun _ => true)) v -> v = s).
  { intros v Hv. apply (mark_spec _ s v Hsl) in Hv as [|Hv]; [assumption|]. unfold marked in Hv. rewrite Hf in Hv. discriminate. }
  apply search_spec.
  - rewrite update_length. exact Hl.
  - assert (Hc := mark_count (repeat false N) s Hsl (Hf s)). assert (Hu : (unvisited (repeat false N) <= N)%nat) by (unfold unvisited; clear; induction N; cbn; lia). cbn [List.length]. lia.
  - apply (mark_spec _ s s Hsl). left. reflexivity.
  - intros v [<-|[]]. apply (mark_spec _ s s Hsl). left. reflexivity.
  - intros v Hv. apply Hm in Hv as ->. apply rt_refl.
  - intros u Hu Hn. apply Hm in Hu as ->. exfalso. apply Hn. left. reflexivity.
Qed.
End SearchProofs.

(* ---------------------------------------------------------------- simple paths *)
Section Paths.
Variable P : nat -> nat -> Prop.
(* l lists the nodes of a walk from a to b *)
Inductive walk : nat -> list nat -> nat -> Prop :=
| walk_one a : walk a [a] a
| walk_step a b c l : P a b -> walk b l c -> walk a (a :: l) c.
Lemma walk_suffix a l c x : walk a l c -> In x l -> exists l1 l2, l = l1 ++ l2 /\ walk x l2 c.
Proof.
  induction 1 as [a|a b c l Hp Hw IH]; intros Hx.
  - destruct Hx as [<-|[]]. exists [], [a]. split; [reflexivity|constructor].
  - destruct Hx as [<-|Hx]; [exists [], (a :: l); split; [reflexivity|econstructor; eassumption]|]. destruct (IH Hx) as (l1 & l2 & -> & Hw2). exists (a :: l1), l2. split; [reflexivity|exact Hw2].
Qed.
Lemma simple_path a c : clos_refl_trans nat P a c -> exists l, walk a l c /\ NoDup l.
Proof.
  intros H. apply clos_rt_rt1n in H. induction H as [a|a b c Hp _ (l & Hw & Hn)]; [exists [a]; split; [constructor|constructor; [intros []|constructor]]|].
  destruct (in_dec Nat.eq_dec a l) as [Hin|Hnin].
  - destruct (walk_suffix _ _ _ _ Hw Hin) as (l1 & l2 & -> & Hw2). exists l2. split; [exact Hw2|]. apply NoDup_app_iff in Hn. tauto.
  - exists (a :: l). split; [econstructor; eassumption|constructor; assumption].
Qed.
End Paths.
(* how often a walk goes from u to v *)
Fixpoint uses (l : list nat) (u v : nat) : Z :=
  match l with
  | a :: r => match r with b :: _ => (if Nat.eqb a u && Nat.eqb b v then 1 else 0) + uses r u v | [] => 0 end
  | [] => 0
  end.
Lemma uses_nonneg l u v : 0 <= uses l u v.
Proof. induction l as [|a l IH]; cbn; [lia|]. destruct l; [lia|]. destruct (_ && _); lia. Qed.
Lemma uses_in l u v : 0 < uses l u v -> In u l /\ In v (tl l).
Proof.
  induction l as [|a l IH]; cbn [uses]; [lia|]. destruct l as [|b l]; [lia|]. intros H. destruct (Nat.eqb a u && Nat.eqb b v) eqn:E.
  - apply andb_prop in E as [E1 E2]. apply Nat.eqb_eq in E1, E2. subst. split; [left; reflexivity|left; reflexivity].
  - destruct (IH ltac:(lia)) as [H1 H2]. split; [right; exact H1|right; exact H2].
Qed.
Lemma uses_simple l u v : NoDup l -> uses l u v <= 1.
Proof.
  induction l as [|a l IH]; cbn [uses]; [lia|]. intros Hn. destruct l as [|b l]; [lia|]. inversion Hn as [|? ? Ha Hn']; subst. specialize (IH Hn'). destruct (Nat.eqb a u && Nat.eqb b v) eqn:E; [|lia].
  apply andb_prop in E as [E1 _]. apply Nat.eqb_eq in E1. subst a. destruct (Z.eq_dec (uses (b :: l) u v) 0) as [->|Hne]; [lia|]. assert (H0 := uses_nonneg (b :: l) u v). destruct (uses_in (b :: l) u v ltac:(lia)) as [H1 _]. contradiction.
Qed.
Lemma uses_oneway l u v : NoDup l -> 0 < uses l u v -> uses l v u = 0.
Proof.
  induction l as [|a l IH]; cbn [uses]; [lia|]. intros Hn. destruct l as [|b l]; [lia|]. inversion Hn as [|? ? Ha Hn']; subst. intros H. assert (H0 := uses_nonneg (b :: l) v u). assert (H0' := uses_nonneg (b :: l) u v).
  assert (Hb : ~ In b l) by (inversion Hn'; assumption).
  assert (Hz : forall x y, 0 < uses (b :: l) x y -> x <> a /\ y <> a /\ y <> b).
  { intros x y Hp. destruct (uses_in _ _ _ Hp) as [Hx Hy]. cbn [tl] in Hy. split; [intros ->; contradiction|]. split; [intros ->; apply Ha; right; exact Hy|intros ->; contradiction]. }
  destruct (Nat.eqb a u && Nat.eqb b v) eqn:E.
  - apply andb_prop in E as [E1 E2]. apply Nat.eqb_eq in E1, E2. subst u v. replace (Nat.eqb a b && Nat.eqb b a) with false by (destruct (Nat.eqb_spec a b) as [->|]; [exfalso; apply Ha; left; reflexivity|reflexivity]).
    destruct (Z.eq_dec (uses (b :: l) b a) 0) as [->|Hne]; [reflexivity|]. destruct (Hz b a ltac:(lia)) as (_ & H1 & _). contradiction.
  - destruct (Hz u v ltac:(lia)) as (H1 & H2 & H3). rewrite (IH Hn') by lia. replace (Nat.eqb a v && Nat.eqb b u) with false by (destruct (Nat.eqb_spec a v) as [->|]; [contradiction|reflexivity]). reflexivity.
Qed.
Lemma walk_uses P a l c u v : walk P a l c -> 0 < uses l u v -> P u v.
Proof.
  induction 1 as [a|a b c l Hp Hw IH]; intros H; [cbn in H; lia|]. cbn [uses] in H. destruct l as [|b' l]; [lia|]. assert (Eb : b' = b) by (inversion Hw; reflexivity). subst b'.
  destruct (Nat.eqb a u && Nat.eqb b v) eqn:E; [apply andb_prop in E as [E1 E2]; apply Nat.eqb_eq in E1, E2; subst; exact Hp|apply IH; lia].
Qed.
Lemma walk_balance P N a l c u : walk P a l c -> (forall x, In x l -> (x < N)%nat) -> (u < N)%nat ->
  sum_nodes N (fun v => uses l u v - uses l v u) = (if Nat.eqb u a then 1 else 0) - (if Nat.eqb u c then 1 else 0).
Proof.
  unfold sum_nodes. induction 1 as [a|a b c l Hp Hw IH]; intros Hl Hu; [cbn; rewrite sumZ_zero by (intros; lia); lia|].
  destruct l as [|b' l]; [inversion Hw|]. assert (Eb : b' = b) by (inversion Hw; reflexivity). subst b'. specialize (IH (fun x Hx => Hl x (or_intror Hx)) Hu).
  set (m := b :: l) in *. assert (Em : forall x y, uses (a :: m) x y = (if Nat.eqb a x && Nat.eqb b y then 1 else 0) + uses m x y) by reflexivity.
  transitivity (sumZ (map (fun v => (if Nat.eqb v b then (if Nat.eqb u a then 1 else 0) else 0) + ((- (if Nat.eqb v a then (if Nat.eqb u b then 1 else 0) else 0)) + (uses m u v - uses m v u))) (seq 0 N))).
  { apply sumZ_ext. intros v _. rewrite !Em. rewrite (Nat.eqb_sym a u), (Nat.eqb_sym b v), (Nat.eqb_sym a v), (Nat.eqb_sym b u). destruct (Nat.eqb u a), (Nat.eqb v b), (Nat.eqb v a), (Nat.eqb u b); cbn [andb]; lia. }
  rewrite sumZ_plus, sumZ_plus, IH, sumZ_opp.
  rewrite (sumZ_pick (fun _ => if Nat.eqb u a then 1 else 0) b), (sumZ_pick (fun _ => if Nat.eqb u b then 1 else 0) a) by (try apply seq_NoDup; apply in_seq; assert (H1 := Hl a (or_introl eq_refl)); assert (H2 := Hl b (or_intror (or_introl eq_refl))); lia). lia.
Qed.

(* ---------------------------------------------------------------- flows and cuts *)
Section Flows.
Variable net : network.
Notation N := (net_size net).
Notation s := (net_source net).
Notation t := (net_sink net).
Hypothesis Hs : (s < N)%nat.
Hypothesis Ht : (t < N)%nat.
Hypothesis Hst : s <> t.
(* the capacity of the entries leaving a set of nodes *)
Definition cut (S : nat -> bool) : Z := sum_nodes N (fun u => sum_nodes N (fun v => if S u && negb (S v) then capacity net u v else 0)).
Lemma flow_across f (S : nat -> bool) : is_flow net f -> S s = true -> S t = false ->
  flow_value net f = sum_nodes N (fun u => sum_nodes N (fun v => if S u && negb (S v) then f u v else 0)).
Proof.
  intros (Ha & _ & Hc) HSs HSt. unfold flow_value, sum_nodes in *.
  transitivity (sumZ (map (fun u => if Nat.eqb u s then sumZ (map (f u) (seq 0 N)) else 0) (seq 0 N))); [symmetry; apply (sumZ_pick (fun u => sumZ (map (f u) (seq 0 N)))); [apply seq_NoDup|apply in_seq; lia]|].
  transitivity (sumZ (map (fun u => sumZ (map (fun v => if S u && negb (S v) then f u v else 0) (seq 0 N)) + sumZ (map (fun v => if S u && S v then f u v else 0) (seq 0 N))) (seq 0 N))).
  { apply sumZ_ext. intros u Hu. apply in_seq in Hu. rewrite <- sumZ_plus. transitivity (if S u then sumZ (map (f u) (seq 0 N)) else 0).
    - destruct (Nat.eqb_spec u s) as [->|Hne]; [rewrite HSs; reflexivity|]. destruct (S u) eqn:ES; [|reflexivity]. symmetry. apply Hc; [lia|exact Hne|]. intros ->. congruence.
    - destruct (S u); [|symmetry; apply sumZ_zero; intros; reflexivity]. apply sumZ_ext. intros v _. cbn. destruct (S v); cbn; lia. }
  rewrite sumZ_plus. assert (H0 : sumZ (map (fun u => sumZ (map (fun v => if S u && S v then f u v else 0) (seq 0 N))) (seq 0 N)) = 0); [|lia].
  set (X := sumZ (map (fun u => sumZ (map (fun v => if S u && S v then f u v else 0) (seq 0 N))) (seq 0 N))). assert (HX : X = - X); [|lia]. unfold X at 1. rewrite sumZ_swap. unfold X. rewrite <- sumZ_opp. apply sumZ_ext. intros u _. rewrite <- sumZ_opp. apply sumZ_ext. intros v _. rewrite (Ha v u). destruct (S u), (S v); reflexivity.
Qed.
Lemma weak_duality f S : is_flow net f -> S s = true -> S t = false -> flow_value net f <= cut S.
Proof.
  intros Hf H1 H2. rewrite (flow_across f S Hf H1 H2). unfold cut, sum_nodes. apply sumZ_le. intros u Hu. apply sumZ_le. intros v Hv. apply in_seq in Hu, Hv. destruct Hf as (_ & Hcap & _). destruct (_ && _); [apply Hcap; lia|lia].
Qed.
Lemma no_augmenting_path f : is_maximum_flow net f -> ~ reaches N (fun u v => capacity net u v - f u v) s t.
Proof.
  intros [Hf Hmax] Hr. destruct (simple_path _ _ _ Hr) as (l & Hw & Hn). assert (Hl : forall x, In x l -> (x < N)%nat).
  { clear - Hw Hs Ht. induction Hw as [a|a b c l Hp Hw IH]; [intros x [<-|[]]; assumption|]. intros x [<-|Hx]; [apply Hp|apply IH; [apply Hp|exact Ht|exact Hx]]. }
  set (g := fun u v => f u v + (uses l u v - uses l v u)). assert (Hbal := fun u Hu => walk_balance _ N _ _ _ u Hw Hl Hu).
  assert (Hg : is_flow net g).
  { destruct Hf as (Ha & Hc & Hk). split; [|split].
    - intros u v. unfold g. rewrite (Ha u v). lia.
    - intros u v Hu Hv. unfold g. specialize (Hc u v Hu Hv). assert (H1 := uses_nonneg l v u). assert (H2 := uses_simple l u v Hn). destruct (Z_le_gt_dec (uses l u v) 0) as [Hle|Hgt]; [lia|].
      destruct (walk_uses _ _ _ _ u v Hw ltac:(lia)) as (_ & _ & Hres). lia.
    - intros u Hu Hus Hut. unfold g, sum_nodes. rewrite sumZ_plus. fold (sum_nodes N (f u)). rewrite (Hk u Hu Hus Hut). specialize (Hbal u Hu). unfold sum_nodes in Hbal. rewrite Hbal. destruct (Nat.eqb_spec u s); [contradiction|]. destruct (Nat.eqb_spec u t); [contradiction|]. reflexivity. }
  specialize (Hmax g Hg). unfold flow_value in Hmax. unfold g, sum_nodes in Hmax. rewrite sumZ_plus in Hmax. specialize (Hbal s Hs). unfold sum_nodes in Hbal. rewrite Hbal in Hmax. rewrite Nat.eqb_refl in Hmax. destruct (Nat.eqb_spec s t); [contradiction|]. lia.
Qed.
(* the set reachable in the residual graph is a minimum cut *)
Lemma reachable_cut f (S : nat -> bool) : is_maximum_flow net f -> (forall v, (v < N)%nat -> S v = true <-> reaches N (fun u v => capacity net u v - f u v) s v) ->
  S s = true /\ S t = false /\ cut S = flow_value net f.
Proof.
  intros Hf HS. assert (H1 : S s = true) by (apply HS; [exact Hs|apply rt_refl]).
  assert (H2 : S t = false) by (destruct (S t) eqn:E; [|reflexivity]; exfalso; apply (no_augmenting_path f Hf), HS; assumption).
  split; [exact H1|]. split; [exact H2|]. destruct Hf as [Hf _]. rewrite (flow_across f S Hf H1 H2). unfold cut, sum_nodes. apply sumZ_ext. intros u Hu. apply sumZ_ext. intros v Hv. apply in_seq in Hu, Hv.
  destruct (S u) eqn:Eu; [|reflexivity]. destruct (S v) eqn:Ev; [reflexivity|]. cbn. destruct Hf as (_ & Hc & _). specialize (Hc u v ltac:(lia) ltac:(lia)). destruct (Z_le_gt_dec (capacity net u v - f u v) 0) as [Hle|Hgt]; [lia|].
  exfalso. assert (S v = true); [|congruence]. apply HS; [lia|]. apply rt_trans with u; [apply HS; [lia|exact Eu]|]. apply rt_step. split; [lia|]. split; [lia|exact Hgt].
Qed.
(* a cut, entry by entry *)
Lemma cut_entries S : (forall e, In e (net_entries net) -> (fst (fst e) < N)%nat /\ (snd (fst e) < N)%nat) ->
  cut S = sumZ (map snd (filter (fun e => S (fst (fst e)) && negb (S (snd (fst e)))) (net_entries net))).
Proof using Type.
  clear Hs Ht Hst. unfold cut, capacity, cap_at. generalize (net_entries net). intros es Hes. rewrite sumZ_filter.
  transitivity (sumZ (map (fun e => sum_nodes N (fun u => sum_nodes N (fun v => if S u && negb (S v) then (if Nat.eqb (fst (fst e)) u && Nat.eqb (snd (fst e)) v then snd e else 0) else 0))) es)).
  - unfold sum_nodes. rewrite <- (sumZ_swap (fun u e => sumZ (map (fun v => if S u && negb (S v) then (if Nat.eqb (fst (fst e)) u && Nat.eqb (snd (fst e)) v then snd e else 0) else 0) (seq 0 N)))).
    apply sumZ_ext. intros u _. rewrite <- (sumZ_swap (fun v e => if S u && negb (S v) then (if Nat.eqb (fst (fst e)) u && Nat.eqb (snd (fst e)) v then snd e else 0) else 0)). apply sumZ_ext. intros v _. destruct (S u && negb (S v)); [apply sumZ_filter|symmetry; apply sumZ_zero; reflexivity].
  - apply sumZ_ext. intros e He. destruct (Hes e He) as [H1 H2]. unfold sum_nodes.
    transitivity (sumZ (map (fun u => if Nat.eqb u (fst (fst e)) then (if S u && negb (S (snd (fst e))) then snd e else 0) else 0) (seq 0 N))).
    + apply sumZ_ext. intros u _. rewrite (Nat.eqb_sym u). destruct (Nat.eqb (fst (fst e)) u); cbn [andb].
      * rewrite <- (sumZ_pick (fun v => if S u && negb (S v) then snd e else 0) (snd (fst e)) (seq 0 N)); [|apply seq_NoDup|apply in_seq; lia]. apply sumZ_ext. intros v _. rewrite (Nat.eqb_sym v). destruct (Nat.eqb (snd (fst e)) v), (S u && negb (S v)); reflexivity.
      * apply sumZ_zero. intros v _. destruct (_ && _); reflexivity.
    + apply (sumZ_pick (fun u => if S u && negb (S (snd (fst e))) then snd e else 0)); [apply seq_NoDup|apply in_seq; lia].
Qed.
End Flows.

(* ---------------------------------------------------------------- the network of a labelled graph *)
Lemma edge_capacity_nonneg scale mc w : 0 <= mc -> 0 <= edge_capacity scale mc w.
Proof. unfold edge_capacity. lia. Qed.
Section Build.
Variables (n : nat) (E : list edge) (weigh : Q -> Z) (pos neg : list nat).
Hypothesis HE : in_range n E.
Hypothesis Hw : forall w, 0 <= weigh w.
Hypothesis Hpos : forall p, In p pos -> (p < n)%nat.
Hypothesis Hneg : forall p, In p neg -> (p < n)%nat.
Hypothesis Hdis : forall p, In p pos -> In p neg -> False.
Let caps := map (fun e => weigh (e_w e)) E.
Let net := build_network n E caps pos neg.
Let inf := sumZ caps + 1.
Lemma combine_caps : map (fun p : edge * Z => (Z.to_nat (e_src (fst p)), Z.to_nat (e_dst (fst p)), snd p)) (combine E caps) = map (fun e => (Z.to_nat (e_src e), Z.to_nat (e_dst e), weigh (e_w e))) E.
Proof. unfold caps. clear. induction E as [|e l IH]; [reflexivity|]. cbn. rewrite IH. reflexivity. Qed.
Lemma entries_in_range e : In e (net_entries net) -> (fst (fst e) < net_size net)%nat /\ (snd (fst e) < net_size net)%nat.
Proof.
  unfold net, build_network. cbn [net_entries net_size]. rewrite combine_caps. rewrite !in_app_iff, !in_map_iff. intros [(x & <- & Hx)|[(p & <- & Hp)|(p & <- & Hp)]]; cbn [fst snd].
  - specialize (HE x Hx). lia.
  - specialize (Hpos p Hp). lia.
  - specialize (Hneg p Hp). lia.
Qed.
Lemma network_cut S : S n = true -> S (Datatypes.S n) = false ->
  cut net S = cut_weight E weigh S + (sumZ (map (fun p => if S p then 0 else inf) pos) + sumZ (map (fun p => if S p then inf else 0) neg)).
Proof.
  intros H1 H2. rewrite (cut_entries net S entries_in_range). unfold net, build_network. cbn [net_entries]. rewrite combine_caps. rewrite !filter_app, !map_app, !sumZ_app. f_equal; [|f_equal].
  - unfold cut_weight. rewrite !sumZ_filter, map_map. reflexivity.
  - rewrite sumZ_filter, map_map. apply sumZ_ext. intros p _. cbn [fst snd]. rewrite H1. destruct (S p); reflexivity.
  - rewrite sumZ_filter, map_map. apply sumZ_ext. intros p _. cbn [fst snd]. rewrite H2. destruct (S p); reflexivity.
Qed.
Lemma cut_weight_bounds S : 0 <= cut_weight E weigh S <= sumZ caps.
Proof.
  unfold cut_weight, caps. rewrite sumZ_filter. split; [apply sumZ_nonneg_map; intros e _; destruct (_ && _); [apply Hw|lia]|]. apply sumZ_le. intros e _. specialize (Hw (e_w e)). destruct (_ && _); lia.
Qed.
Lemma cut_weight_ext S S' : (forall i, (i < n)%nat -> S i = S' i) -> cut_weight E weigh S = cut_weight E weigh S'.
Proof using HE.
  intros H. clear - HE H. unfold cut_weight. f_equal. f_equal. apply filter_ext_in. intros e He. specialize (HE e He). rewrite !H by lia. reflexivity.
Qed.
(* adding the terminals to an assignment *)
Definition with_terminals (side : nat -> bool) (v : nat) : bool := if Nat.ltb v n then side v else Nat.eqb v n.
Lemma terminals_cut side : (forall p, In p pos -> side p = true) -> (forall p, In p neg -> side p = false) -> cut net (with_terminals side) = cut_weight E weigh side.
Proof.
  intros H1 H2. rewrite network_cut.
  - rewrite (sumZ_zero (fun p => if with_terminals side p then 0 else inf)), (sumZ_zero (fun p => if with_terminals side p then inf else 0)).
    + rewrite Z.add_0_r. apply cut_weight_ext. intros i Hi. unfold with_terminals. replace (i <? n)%nat with true by lia. reflexivity.
    + intros p Hp. unfold with_terminals. assert (Hpn := Hneg p Hp). replace (p <? n)%nat with true by lia. rewrite (H2 p Hp). reflexivity.
    + intros p Hp. unfold with_terminals. assert (Hpn := Hpos p Hp). replace (p <? n)%nat with true by lia. rewrite (H1 p Hp). reflexivity.
  - unfold with_terminals. rewrite Nat.ltb_irrefl. apply Nat.eqb_refl.
  - unfold with_terminals. replace (Datatypes.S n <? n)%nat with false by lia. apply Nat.eqb_neq. lia.
Qed.
Lemma terminals_ok : (net_source net < net_size net)%nat /\ (net_sink net < net_size net)%nat /\ net_source net <> net_sink net.
Proof. unfold net. cbn. lia. Qed.
Lemma mincut_core f S : is_maximum_flow net f -> (forall v, (v < net_size net)%nat -> S v = true <-> reaches (net_size net) (fun u v => capacity net u v - f u v) (net_source net) v) ->
  (forall p, In p pos -> S p = true) /\ (forall p, In p neg -> S p = false) /\ cut_weight E weigh S = flow_value net f /\
  (forall side, (forall p, In p pos -> side p = true) -> (forall p, In p neg -> side p = false) -> cut_weight E weigh S <= cut_weight E weigh side).
Proof.
  intros Hf HS. destruct terminals_ok as (T1 & T2 & T3). destruct (reachable_cut net T1 T2 T3 f S Hf HS) as (H1 & H2 & H3).
  assert (Hdual : forall side, (forall p, In p pos -> side p = true) -> (forall p, In p neg -> side p = false) -> flow_value net f <= cut_weight E weigh side).
  { intros side Hp Hn. rewrite <- (terminals_cut side Hp Hn). apply weak_duality; try assumption; [apply Hf| |].
    - unfold net, with_terminals. cbn [net_source net_sink build_network]. rewrite Nat.ltb_irrefl. apply Nat.eqb_refl.
    - unfold net, with_terminals. cbn [net_source net_sink build_network]. replace (Datatypes.S n <? n)%nat with false by lia. apply Nat.eqb_neq. lia. }
  (* the positive nodes alone are a cut that no infinite entry crosses *)
  assert (Hsmall : flow_value net f <= sumZ caps).
  { eapply Z.le_trans; [apply (Hdual (fun v => existsb (Nat.eqb v) pos))|apply cut_weight_bounds].
    - intros p Hp. apply existsb_exists. exists p. split; [exact Hp|apply Nat.eqb_refl].
    - intros p Hp. destruct (existsb (Nat.eqb p) pos) eqn:Ex; [|reflexivity]. apply existsb_exists in Ex as (q & Hq & Eq). apply Nat.eqb_eq in Eq. subst q. destruct (Hdis p Hq Hp). }
  assert (Hnet : cut net S = cut_weight E weigh S + (sumZ (map (fun p => if S p then 0 else inf) pos) + sumZ (map (fun p => if S p then inf else 0) neg))) by (apply network_cut; assumption).
  assert (Hb := cut_weight_bounds S). assert (Hie : inf = sumZ caps + 1) by reflexivity. clearbody inf. assert (Hinf : 0 <= inf) by lia.
  assert (Ha : 0 <= sumZ (map (fun p => if S p then 0 else inf) pos)) by (apply sumZ_nonneg_map; intros p _; destruct (S p); lia).
  assert (Hc : 0 <= sumZ (map (fun p => if S p then inf else 0) neg)) by (apply sumZ_nonneg_map; intros p _; destruct (S p); lia).
  assert (Hp1 : forall p, In p pos -> S p = true).
  { intros p Hp. destruct (S p) eqn:Ep; [reflexivity|exfalso]. assert (Hm := sumZ_member (fun p => if S p then 0 else inf) pos p ltac:(intros q _; cbv beta; destruct (S q); lia) Hp). cbn beta in Hm. rewrite Ep in Hm. lia. }
  assert (Hn1 : forall p, In p neg -> S p = false).
  { intros p Hp. destruct (S p) eqn:Ep; [exfalso|reflexivity]. assert (Hm := sumZ_member (fun p => if S p then inf else 0) neg p ltac:(intros q _; cbv beta; destruct (S q); lia) Hp). cbn beta in Hm. rewrite Ep in Hm. lia. }
  assert (Hz1 : sumZ (map (fun p => if S p then 0 else inf) pos) = 0) by (apply sumZ_zero; intros p Hp; rewrite (Hp1 p Hp); reflexivity).
  assert (Hz2 : sumZ (map (fun p => if S p then inf else 0) neg) = 0) by (apply sumZ_zero; intros p Hp; rewrite (Hn1 p Hp); reflexivity).
  split; [exact Hp1|]. split; [exact Hn1|]. split; [lia|]. intros side H4 H5. specialize (Hdual side H4 H5). lia.
Qed.
End Build.

Lemma two_classes l lo hi : uniqueZ l = [lo; hi] -> lo < hi /\ forall v, In v l <-> v = lo \/ v = hi.
Proof.
  intros H. split.
  - assert (Ha := uniqueZ_ascending l). rewrite H in Ha. inversion Ha as [|? ? _ Hf]; subst. inversion Hf; subst. assumption.
  - intros v. rewrite <- uniqueZ_In, H. cbn. split; [intros [|[|[]]]; auto|intros [|]; auto].
Qed.
Section Main.
Variable mf : network -> result (nat -> nat -> Z).
Variable stored : nat -> (nat -> nat -> Z) -> nat -> list nat.
Hypothesis Hmf : computes_maximum_flows mf.
Hypothesis Hst : stores_nonzero stored.
Lemma mincut_run n ei weight y mask scale mc E lo hi :
  0 <= mc -> validate_graph n ei weight = Ok E -> lenZ y = n -> lenZ mask = n -> uniqueZ (map (fun i => nth i y 0) (flatnonzero mask)) = [lo; hi] -> (0 < scale)%Q ->
  let net := build_network (Z.to_nat n) E (map (fun e => edge_capacity scale mc (e_w e)) E) (filter (fun i => nth i y 0 =? hi) (flatnonzero mask)) (filter (fun i => nth i y 0 =? lo) (flatnonzero mask)) in
  forall flow, mf net = Ok flow ->
  exists F, graph_mincuts mf stored n ei weight y mask scale mc = Ok F /\ List.length F = Z.to_nat n /\ (forall r, In r F -> r = [0; 1]%Q \/ r = [1; 0]%Q) /\
    let side := fun i => Qeq_bool (entry F i 1) 1 in
    respects y mask lo hi side /\ cut_weight E (edge_capacity scale mc) side = flow_value net flow /\
    forall side', respects y mask lo hi side' -> cut_weight E (edge_capacity scale mc) side <= cut_weight E (edge_capacity scale mc) side'.
Proof.
  intros Hmc HG Hy Hm Hu Hsc net flow Hflow. destruct (validate_graph_ok _ _ _ _ HG) as (Hn & HE & _). destruct (two_classes _ _ _ Hu) as [Hlt Hcl].
  set (pos := filter (fun i => nth i y 0 =? hi) (flatnonzero mask)) in *. set (neg := filter (fun i => nth i y 0 =? lo) (flatnonzero mask)) in *. set (weigh := edge_capacity scale mc) in *. set (nn := Z.to_nat n) in *.
  assert (Hlab : forall i, In i (flatnonzero mask) -> (i < nn)%nat).
  { intros i Hi. apply flatnonzero_In in Hi. destruct (Nat.lt_ge_cases i (List.length mask)) as [|Hge]; [unfold lenZ in Hm; lia|]. rewrite nth_overflow in Hi by lia. discriminate. }
  assert (Hpos : forall p, In p pos -> (p < nn)%nat) by (intros p Hp; apply filter_In in Hp; apply Hlab, Hp).
  assert (Hneg : forall p, In p neg -> (p < nn)%nat) by (intros p Hp; apply filter_In in Hp; apply Hlab, Hp).
  assert (Hdis : forall p, In p pos -> In p neg -> False) by (intros p Hp Hq; apply filter_In in Hp, Hq; lia).
  assert (Hw : forall w, 0 <= weigh w) by (intros w; apply edge_capacity_nonneg, Hmc).
  set (R := fun u v => capacity net u v - flow u v).
  assert (HsN : (nn < nn + 2)%nat) by lia.
  destruct (reachable_spec R (stored (nn + 2)%nat R) (nn + 2)%nat (fun u v => proj1 (Hst _ R u v)) (fun u v Hv HR => proj2 (Hst _ R u v) Hv ltac:(lia)) nn HsN) as (vis & Hvis & Hvl & Hvr).
  destruct (mincut_core nn E weigh pos neg HE Hw Hpos Hneg Hdis flow (fun v => nth v vis false) (Hmf _ _ Hflow)) as (C1 & C2 & C3 & C4).
  { intros v _. apply Hvr. }
  set (F := map (fun b : bool => if b then [0; 1]%Q else [1; 0]%Q) (firstn nn vis)).
  assert (Hentry : forall i, (i < nn)%nat -> nth i F [] = if nth i vis false then [0; 1]%Q else [1; 0]%Q).
  { intros i Hi. unfold F. rewrite (nth_map_in _ _ i false) by (rewrite firstn_length; lia). replace (nth i (firstn nn vis) false) with (nth i vis false); [reflexivity|]. rewrite <- (firstn_skipn nn vis) at 1. rewrite app_nth1; [reflexivity|]. rewrite firstn_length. lia. }
  assert (Hside : forall i, (i < nn)%nat -> Qeq_bool (entry F i 1) 1 = nth i vis false) by (intros i Hi; unfold entry; rewrite (Hentry i Hi); destruct (nth i vis false); reflexivity).
  exists F. split.
  { unfold graph_mincuts. rewrite HG. cbn [bind]. rewrite Hy, Hm, Z.eqb_refl. cbn [negb]. destruct (flatnonzero mask) as [|i0 l0] eqn:Efl; [discriminate Hu|]. rewrite Hu. destruct (Qle_bool scale 0) eqn:Es; [apply Qle_bool_iff in Es; exfalso; apply (Qlt_not_le _ _ Hsc), Es|].
    fold pos neg nn. fold weigh. fold net. rewrite Hflow. fold R. cbv zeta. rewrite Hvis. cbn [bind]. fold F.
    replace (forallb (fun i => Qeq_bool (entry F i 1) 1) pos) with true; [|symmetry; apply forallb_forall; intros p Hp; rewrite (Hside p (Hpos p Hp)); apply C1, Hp].
    replace (forallb (fun i => Qeq_bool (entry F i 0) 1) neg) with true; [reflexivity|]. symmetry. apply forallb_forall. intros p Hp. unfold entry. rewrite (Hentry p (Hneg p Hp)). cbv beta in C2. rewrite (C2 p Hp). reflexivity. }
  split; [unfold F; rewrite map_length, firstn_length; lia|]. split; [intros r Hr; apply in_map_iff in Hr as ([|] & <- & _); auto|]. cbv zeta.
  assert (Hcw : cut_weight E weigh (fun i => Qeq_bool (entry F i 1) 1) = cut_weight E weigh (fun v => nth v vis false)) by (apply (cut_weight_ext nn E weigh HE); exact Hside).
  split; [|split].
  - intros i Hi. assert (Hin : In i (flatnonzero mask)) by (apply flatnonzero_In, Hi). rewrite (Hside i (Hlab i Hin)). split; intros Hv; [apply C1|apply C2]; apply filter_In; (split; [exact Hin|lia]).
  - rewrite Hcw. exact C3.
  - intros side' Hr. rewrite Hcw. apply C4; intros p Hp; apply filter_In in Hp as [Hp Hv]; apply flatnonzero_In in Hp; apply (Hr p Hp); lia.
Qed.
Lemma mincut_inv n ei weight y mask scale mc F : graph_mincuts mf stored n ei weight y mask scale mc = Ok F ->
  exists E lo hi flow, validate_graph n ei weight = Ok E /\ lenZ y = n /\ lenZ mask = n /\ uniqueZ (map (fun i => nth i y 0) (flatnonzero mask)) = [lo; hi] /\ (0 < scale)%Q /\
    mf (build_network (Z.to_nat n) E (map (fun e => edge_capacity scale mc (e_w e)) E) (filter (fun i => nth i y 0 =? hi) (flatnonzero mask)) (filter (fun i => nth i y 0 =? lo) (flatnonzero mask))) = Ok flow.
Proof.
  unfold graph_mincuts. intros H. inv_bind H. rename a into E0. destruct (lenZ y =? n) eqn:Ey; cbn [negb] in H; [|discriminate]. destruct (lenZ mask =? n) eqn:Em; cbn [negb] in H; [|discriminate].
  destruct (flatnonzero mask) as [|i0 l0]; [discriminate|]. destruct (uniqueZ _) as [|lo [|hi [|? ?]]] eqn:Eu; try discriminate. destruct (Qle_bool scale 0) eqn:Es; [discriminate|]. destruct (mf _) as [flow|] eqn:Ef; [|discriminate].
  exists E0, lo, hi, flow. split; [exact E|]. split; [lia|]. split; [lia|]. split; [reflexivity|]. split; [|exact Ef]. destruct (Qlt_le_dec 0 scale) as [|Hle]; [assumption|]. apply Qle_bool_iff in Hle. congruence.
Qed.
End Main.

Lemma rint_nearest q : nearest_even q (rint q).
Proof.
  unfold rint, nearest_even. pose proof (Qfloor_le q) as H1. pose proof (Qlt_floor q) as H2. set (f := Qfloor q) in *. rewrite inject_Z_plus in H2. change (inject_Z 1) with 1%Q in H2.
  assert (Hp : forall z : Z, (inject_Z (z + 1) == inject_Z z + 1)%Q) by (intros z; rewrite inject_Z_plus; reflexivity).
  destruct (Qle_bool (q - inject_Z f) (1 # 2)) eqn:E1.
  - apply Qle_bool_iff in E1. destruct (Qeq_bool (q - inject_Z f) (1 # 2)) eqn:E2.
    + apply Qeq_bool_iff in E2. destruct (Z.even f) eqn:Ef.
      * split; [|intros _; exact Ef]. rewrite Qabs_pos by lra. lra.
      * split; [|intros _; rewrite Z.even_add, Ef; reflexivity]. rewrite (Hp f). rewrite Qabs_neg by lra. lra.
    + assert (~ (q - inject_Z f == 1 # 2)%Q) by (intros E; apply Qeq_bool_iff in E; congruence).
      split; [rewrite Qabs_pos by lra; lra|]. rewrite Qabs_pos by lra. intros E. exfalso. apply H. lra.
  - assert (~ (q - inject_Z f <= 1 # 2)%Q) by (intros E; apply Qle_bool_iff in E; congruence).
    assert ((1 # 2) < q - inject_Z f)%Q by (apply Qnot_le_lt; assumption).
    split; [rewrite (Hp f), Qabs_neg by lra; lra|]. rewrite (Hp f), Qabs_neg by lra. intros E. exfalso. lra.
Qed.
Lemma edge_capacity_weights scale mc : integer_weights scale mc (edge_capacity scale mc).
Proof. intros w. exists (rint (w * scale)). split; [apply rint_nearest|reflexivity]. Qed.
Lemma validate_graph_accepts n ei weight : 0 < n -> (forall a b, In (a, b) ei -> 0 <= a < n /\ 0 <= b < n) ->
  (forall l, weight = Some l -> List.length l = List.length ei) -> exists E, validate_graph n ei weight = Ok E.
Proof.
  intros Hn He Hw. unfold validate_graph. set (w := match weight with None => map (fun _ => 1%Q) ei | Some l => l end).
  assert (Hl : List.length w = List.length ei) by (unfold w; destruct weight; [apply Hw; reflexivity|apply map_length]).
  apply Nat.eqb_eq in Hl. cbv zeta. rewrite Hl. cbn [negb]. destruct (Z.leb_spec n 0); [lia|].
  destruct (existsb (fun e : Z * Z => (fst e <? 0) || (snd e <? 0)) ei) eqn:E1.
  { apply existsb_exists in E1 as ([a b] & H1 & H2). specialize (He a b H1). cbn in H2. lia. }
  destruct (existsb (fun e : Z * Z => (fst e >=? n) || (snd e >=? n)) ei) eqn:E2.
  { apply existsb_exists in E2 as ([a b] & H1 & H2). specialize (He a b H1). cbn in H2. lia. }
  eexists. reflexivity.
Qed.
