From Coq Require Import String QArith Lia ZifyBool ZifyNat.
From Verif Require Import Prelude BundleModel BundleSpec BundleProofs InjModel InjSpec.
Local Open Scope string_scope.
Local Open Scope Z_scope.
Local Open Scope list_scope.
Local Notation length := List.length.

(* induction over nested values *)
Section Ind.
Variable P : value -> Prop.
Hypothesis (Hn : P VNone) (Ht : forall a d, P (VTensor a d)) (Ha : forall a, P (VArray a)) (Ho : forall o, P (VOther o)).
Hypothesis Hd : forall l, (forall k v, In (k, v) l -> P v) -> P (VDict l).
Hypothesis Hs : forall l, (forall v, In v l -> P v) -> P (VSeq l).
Fixpoint value_rect' (v : value) : P v :=
  match v with
  | VNone => Hn | VTensor a d => Ht a d | VArray a => Ha a | VOther o => Ho o
  | VDict l => Hd l ((fix each (l : list (string * value)) : forall k v, In (k, v) l -> P v :=
      match l with [] => fun _ _ H => match H with end
      | (k0, v0) :: r => fun k v H => match H with or_introl E => eq_ind v0 P (value_rect' v0) v (f_equal snd E) | or_intror H' => each r k v H' end end) l)
  | VSeq l => Hs l ((fix each (l : list value) : forall v, In v l -> P v :=
      match l with [] => fun _ H => match H with end
      | v0 :: r => fun v H => match H with or_introl E => eq_ind v0 P (value_rect' v0) v E | or_intror H' => each r v H' end end) l)
  end.
End Ind.

Lemma flags_dict l : (fst (flags (VDict l)) = true <-> exists k v, In (k, v) l /\ fst (flags v) = true) /\
  (snd (flags (VDict l)) = true <-> exists k v, In (k, v) l /\ snd (flags v) = true).
Proof.
  induction l as [|(k & v) l [IH1 IH2]]; [cbn; split; (split; [discriminate|intros (? & ? & [] & _)])|].
  assert (E : flags (VDict ((k, v) :: l)) = let '(t, n) := flags v in let '(t', n') := flags (VDict l) in (t || t', n || n')) by reflexivity.
  rewrite E; destruct (flags v) as (t & n) eqn:Ef, (flags (VDict l)) as (t' & n'); cbn [fst snd] in *; rewrite !orb_true_iff, IH1, IH2; split; split.
  - intros [H|(k' & v' & H & H')]; [exists k, v; split; [left; reflexivity|rewrite Ef; exact H]|exists k', v'; split; [right; exact H|exact H']].
  - intros (k' & v' & [[= <- <-]|H] & H'); [left; rewrite Ef in H'; exact H'|right; eauto].
  - intros [H|(k' & v' & H & H')]; [exists k, v; split; [left; reflexivity|rewrite Ef; exact H]|exists k', v'; split; [right; exact H|exact H']].
  - intros (k' & v' & [[= <- <-]|H] & H'); [left; rewrite Ef in H'; exact H'|right; eauto].
Qed.
Lemma flags_seq l : (fst (flags (VSeq l)) = true <-> exists v, In v l /\ fst (flags v) = true) /\
  (snd (flags (VSeq l)) = true <-> exists v, In v l /\ (snd (flags v) = true \/ flags v = (false, false))).
Proof.
  induction l as [|v l [IH1 IH2]]; [cbn; split; (split; [discriminate|intros (? & [] & _)])|].
  assert (E : flags (VSeq (v :: l)) = let '(t, n) := flags v in let '(t', n') := flags (VSeq l) in (t || t', (n || (negb t && negb n)) || n')) by reflexivity.
  rewrite E; destruct (flags v) as (t & n) eqn:Ef, (flags (VSeq l)) as (t' & n'); cbn [fst snd] in *; rewrite !orb_true_iff, IH1, IH2; split; split.
  - intros [H|(v' & H & H')]; [exists v; split; [left; reflexivity|rewrite Ef; exact H]|exists v'; split; [right; exact H|exact H']].
  - intros (v' & [<-|H] & H'); [left; rewrite Ef in H'; exact H'|right; eauto].
  - intros [[H|H]|(v' & H & H')]; [exists v; rewrite Ef; cbn; auto| |exists v'; split; [right; exact H|exact H']].
    exists v; split; [left; reflexivity|]; right; rewrite Ef; destruct t, n; try discriminate; reflexivity.
  - intros (v' & [<-|H] & H'); [left|right; eauto]; rewrite Ef in H'; destruct H' as [H'|[= -> ->]]; [left; exact H'|right; reflexivity].
Qed.
Lemma flags_spec v : (fst (flags v) = true <-> has_tensor v) /\ (snd (flags v) = true <-> has_array v) /\ (flags v = (false, false) <-> bare v).
Proof.
  induction v using value_rect'.
  - cbn; repeat split; try discriminate; try (intros H; inversion H; fail); constructor.
  - cbn; repeat split; try discriminate; try (intros H; inversion H; fail); constructor.
  - cbn; repeat split; try discriminate; try (intros H; inversion H; fail); constructor.
  - cbn; repeat split; try discriminate; try (intros H; inversion H; fail); constructor.
  - destruct (flags_dict l) as [H1 H2].
    assert (K1 : fst (flags (VDict l)) = true <-> has_tensor (VDict l)).
    { rewrite H1; split; [intros (k & v & Hi & Hv); apply (H k v Hi) in Hv; econstructor; eassumption|].
      intros Hx; inversion Hx as [|l' k v Hi Hv|]; subst; exists k, v; split; [exact Hi|apply (H k v Hi); exact Hv]. }
    assert (K2 : snd (flags (VDict l)) = true <-> has_array (VDict l)).
    { rewrite H2; split; [intros (k & v & Hi & Hv); apply (H k v Hi) in Hv; econstructor; eassumption|].
      intros Hx; inversion Hx as [|l' k v Hi Hv| |]; subst; exists k, v; split; [exact Hi|apply (H k v Hi); exact Hv]. }
    split; [exact K1|split; [exact K2|]].
    split.
    + intros E; constructor; intros k v Hi; apply (H k v Hi); destruct (flags v) as [[|] [|]] eqn:Ef; [| | |reflexivity]; exfalso.
      * assert (fst (flags (VDict l)) = true) by (apply H1; exists k, v; rewrite Ef; auto); rewrite E in H0; discriminate.
      * assert (fst (flags (VDict l)) = true) by (apply H1; exists k, v; rewrite Ef; auto); rewrite E in H0; discriminate.
      * assert (snd (flags (VDict l)) = true) by (apply H2; exists k, v; rewrite Ef; auto); rewrite E in H0; discriminate.
    + intros Hx; inversion Hx as [| |l' Hb|]; subst; destruct (flags (VDict l)) as [t n] eqn:Ef; cbn [fst snd] in H1, H2.
      destruct t; [destruct (proj1 H1 eq_refl) as (k & v & Hi & Hv); pose proof (proj2 (proj2 (proj2 (H k v Hi))) (Hb k v Hi)) as E; rewrite E in Hv; discriminate|].
      destruct n; [destruct (proj1 H2 eq_refl) as (k & v & Hi & Hv); pose proof (proj2 (proj2 (proj2 (H k v Hi))) (Hb k v Hi)) as E; rewrite E in Hv; discriminate|reflexivity].
  - destruct (flags_seq l) as [H1 H2].
    split; [|split].
    + change (fst (flags (VSeq l)) = true <-> has_tensor (VSeq l)); rewrite H1; split; [intros (v & Hi & Hv); apply (H v Hi) in Hv; econstructor; eassumption|].
      intros Hx; inversion Hx as [| |l' v Hi Hv]; subst; exists v; split; [exact Hi|apply (H v Hi); exact Hv].
    + change (snd (flags (VSeq l)) = true <-> has_array (VSeq l)); rewrite H2; split.
      * intros (v & Hi & [Hv|Hv]); [apply (H v Hi) in Hv; eapply ha_seq; eassumption|apply (proj2 (proj2 (H v Hi))) in Hv; eapply ha_bare; eassumption].
      * intros Hx; inversion Hx as [| |l' v Hi Hv|l' v Hi Hv]; subst; exists v; (split; [exact Hi|]); [left; apply (H v Hi); exact Hv|right; apply (proj2 (proj2 (H v Hi))); exact Hv].
    + change (flags (VSeq l) = (false, false) <-> bare (VSeq l)); split.
      * intros E; destruct l as [|v l]; [constructor|exfalso].
        destruct (flags v) as [t n] eqn:Ef; destruct t, n.
        -- assert (fst (flags (VSeq (v :: l))) = true) by (apply H1; exists v; rewrite Ef; cbn; auto); rewrite E in H0; discriminate.
        -- assert (fst (flags (VSeq (v :: l))) = true) by (apply H1; exists v; rewrite Ef; cbn; auto); rewrite E in H0; discriminate.
        -- assert (snd (flags (VSeq (v :: l))) = true) by (apply H2; exists v; rewrite Ef; cbn; auto); rewrite E in H0; discriminate.
        -- assert (snd (flags (VSeq (v :: l))) = true) by (apply H2; exists v; rewrite Ef; cbn; auto); rewrite E in H0; discriminate.
      * intros Hx; inversion Hx; reflexivity.
Qed.
Lemma container_iff v : is_container v = true <-> (exists a d, v = VTensor a d) \/ (exists l, v = VDict l) /\ has_tensor v /\ ~ has_array v.
Proof.
  destruct (flags_spec v) as (H1 & H2 & _); rewrite <- H1, <- H2.
  destruct v; cbn [is_container].
  - split; [discriminate|intros [(a & d & E)|((l & E) & _)]; discriminate].
  - split; [left; eauto|reflexivity].
  - split; [discriminate|intros [(a' & d & E)|((l & E) & _)]; discriminate].
  - destruct (flags (VDict l)) as [t n]; cbn [fst snd]; destruct t, n; cbn; split; intros H; try discriminate; try reflexivity.
    + destruct H as [(a & d & E)|(_ & _ & H)]; [discriminate|exfalso; apply H; reflexivity].
    + right; split; [eauto|split; [reflexivity|discriminate]].
    + destruct H as [(a & d & E)|(_ & H & _)]; discriminate.
    + destruct H as [(a & d & E)|(_ & H & _)]; discriminate.
  - split; [discriminate|intros [(a' & d & E)|((l' & E) & _)]; discriminate].
  - split; [discriminate|intros [(a' & d & E)|((l' & E) & _)]; discriminate].
Qed.

(* ----- conversions ----- *)
Section Smart.
Context (asarray : value -> result arr).
Local Notation smart := (smart asarray).
Fixpoint smart_fields (device : option string) (l : list (string * value)) : result (list (string * value)) :=
  match l with [] => Ok [] | (k, v) :: r => do v' <- smart device v; do r' <- smart_fields device r; Ok ((k, v') :: r') end.
Lemma smart_dict device l : smart device (VDict l) = (do l' <- smart_fields device l; Ok (VDict l')).
Proof.
  cbn [InjModel.smart].
  match goal with |- (do l' <- ?f l; _) = _ => assert (E : f l = smart_fields device l) end; [|rewrite E; reflexivity].
  induction l as [|(k & v) l IH]; [reflexivity|]; cbn [smart_fields]; rewrite <- IH; reflexivity.
Qed.
Lemma smart_fields_in device l l' : smart_fields device l = Ok l' -> forall k v', In (k, v') l' -> exists v, In (k, v) l /\ smart device v = Ok v'.
Proof.
  revert l'; induction l as [|(k & v) l IH]; intros l'; cbn [smart_fields]; [intros [= <-] ? ? []|].
  intros H; apply bind_ok in H; destruct H as (v1 & Hv & H); apply bind_ok in H; destruct H as (r & Hr & [= <-]).
  intros k' v' [[= <- <-]|Hi]; [exists v; split; [left; reflexivity|exact Hv]|destruct (IH r Hr k' v' Hi) as (w & Hw & Ew); exists w; split; [right; exact Hw|exact Ew]].
Qed.
Lemma smart_fields_get device l l' : smart_fields device l = Ok l' -> forall k, match get l k with None => get l' k = None | Some v => exists v', get l' k = Some v' /\ smart device v = Ok v' end.
Proof.
  revert l'; induction l as [|(k0 & v) l IH]; intros l'; cbn [smart_fields]; [intros [= <-] k; reflexivity|].
  intros H; apply bind_ok in H; destruct H as (v1 & Hv & H); apply bind_ok in H; destruct H as (r & Hr & [= <-]).
  intros k; cbn [get]; destruct (String.eqb k0 k); [eauto|apply IH; exact Hr].
Qed.
Lemma smart_torch device v v' : smart device v = Ok v' -> torch_only device v'.
Proof.
  revert v'; induction v as [|a d|a|o|l H|l H] using value_rect'; intros v' E.
  - injection E as <-; constructor.
  - injection E as <-; constructor; intros d' ->; reflexivity.
  - injection E as <-; constructor; intros d' ->; reflexivity.
  - cbn in E; apply bind_ok in E; destruct E as (a & _ & [= <-]); constructor; intros d' ->; reflexivity.
  - rewrite smart_dict in E; apply bind_ok in E; destruct E as (l' & El & [= <-]); constructor; intros k v' Hi.
    destruct (smart_fields_in device l l' El k v' Hi) as (v & Hv & Ev); exact (H k v Hv v' Ev).
  - cbn in E; apply bind_ok in E; destruct E as (a & _ & [= <-]); constructor; intros d' ->; reflexivity.
Qed.
Lemma smart_same device v : torch_only device v -> smart device v = Ok v.
Proof.
  induction v as [|a d|a|o|l H|l H] using value_rect'; intros T; inversion T as [|a' d' Hd|l' Hl]; subst; try reflexivity.
  - cbn; destruct device as [d'|]; [rewrite (Hd d' eq_refl)|]; reflexivity.
  - rewrite smart_dict.
    assert (E : smart_fields device l = Ok l); [|rewrite E; reflexivity].
    clear T; induction l as [|(k & v) l IH]; [reflexivity|].
    cbn [smart_fields]; rewrite (H k v (or_introl eq_refl)) by (apply (Hl k v); left; reflexivity); cbn [bind].
    rewrite IH; [reflexivity|intros k' v' Hi; apply (H k' v'); right; exact Hi|intros k' v' Hi; apply (Hl k' v'); right; exact Hi].
Qed.
Lemma smart_path device p : forall v v', smart device v = Ok v' -> forall x, at_path p v = Some x -> exists x', at_path p v' = Some x' /\ smart device x = Ok x'.
Proof.
  induction p as [|k p IH]; intros v v' E x Hx; [injection Hx as <-; exists v'; auto|].
  cbn [at_path] in Hx; destruct v as [|a d|a|l|l|o]; try discriminate.
  rewrite smart_dict in E; apply bind_ok in E; destruct E as (l' & El & [= <-]).
  pose proof (smart_fields_get device l l' El k) as Hg; destruct (get l k) as [y|]; [|discriminate].
  destruct Hg as (y' & Eg & Ey); cbn [at_path]; rewrite Eg; eapply IH; eassumption.
Qed.
Lemma smart_path_none device p : forall v v', smart device v = Ok v' -> at_path p v = None -> at_path p v' = None.
Proof.
  induction p as [|k p IH]; intros v v' E Hx; [discriminate|].
  cbn [at_path] in *; destruct v as [|a d|a|l|l|o].
  - injection E as <-; reflexivity.
  - injection E as <-; reflexivity.
  - injection E as <-; reflexivity.
  - rewrite smart_dict in E; apply bind_ok in E; destruct E as (l' & El & [= <-]).
    pose proof (smart_fields_get device l l' El k) as Hg; destruct (get l k) as [y|]; [destruct Hg as (y' & -> & Ey); eapply IH; eassumption|rewrite Hg; reflexivity].
  - cbn in E; apply bind_ok in E; destruct E as (a & _ & [= <-]); reflexivity.
  - cbn in E; apply bind_ok in E; destruct E as (a & _ & [= <-]); reflexivity.
Qed.
End Smart.

(* ----- benchmark mode ----- *)
Lemma floating_iff d : floating d = true <-> d = F64 \/ d = Floating.
Proof. destruct d; cbn; intuition discriminate. Qed.
Lemma strict_tensor_ok v u : strict_tensor v = Ok u <->
  (forall a d, v = VTensor a d \/ (exists l, v = VDict l /\ at_path ["x"] v = Some (VTensor a d)) -> (2 <= length (a_shape a))%nat /\ (a_type a = F64 \/ a_type a = Floating)) /\
  (forall a, v = VArray a \/ (exists l, v = VDict l /\ at_path ["x"] v = Some (VArray a)) -> (2 <= length (a_shape a))%nat).
Proof.
  assert (T : forall a u, (if Nat.ltb (length (a_shape a)) 2 then Err BenchError else if floating (a_type a) then Ok tt else Err BenchError) = Ok u <->
    (2 <= length (a_shape a))%nat /\ (a_type a = F64 \/ a_type a = Floating)).
  { intros a []; rewrite <- floating_iff; destruct (Nat.ltb_spec (length (a_shape a)) 2), (floating (a_type a)); split; try discriminate; try lia; intros; try reflexivity; try (split; [lia|reflexivity]); destruct H0; try lia; discriminate. }
  assert (R : forall a u, (if Nat.ltb (length (a_shape a)) 2 then Err BenchError else Ok tt) = Ok u <-> (2 <= length (a_shape a))%nat).
  { intros a []; destruct (Nat.ltb_spec (length (a_shape a)) 2); split; try discriminate; try lia; reflexivity. }
  unfold strict_tensor; destruct v as [|a d|a|l|l|o]; cbn [feature_tensor].
  - split; [intros _; split; intros; destruct H as [E|(l & E & _)]; discriminate|destruct u; reflexivity].
  - rewrite T; split; [intros H; split; [intros a' d' [[= <- <-]|(l & E & _)]; [exact H|discriminate]|intros a' [E|(l & E & _)]; discriminate]|intros [H _]; apply (H a d); auto].
  - rewrite R; split; [intros H; split; [intros a' d' [E|(l & E & _)]; discriminate|intros a' [[= <-]|(l & E & _)]; [exact H|discriminate]]|intros [_ H]; apply (H a); auto].
  - cbn [at_path]; destruct (get l "x") as [x|].
    + destruct x as [|a d|a|l'|l'|o].
      * split; [intros _; split; [intros a d [E|(l0 & _ & E)]; discriminate|intros a [E|(l0 & _ & E)]; discriminate]|destruct u; reflexivity].
      * rewrite T; split; [intros H; split; [intros a' d' [E|(l0 & _ & [= <- <-])]; [discriminate|exact H]|intros a' [E|(l0 & _ & E)]; discriminate]|intros [H _]; apply (H a d); right; eauto].
      * rewrite R; split; [intros H; split; [intros a' d' [E|(l0 & _ & E)]; discriminate|intros a' [E|(l0 & _ & [= <-])]; [discriminate|exact H]]|intros [_ H]; apply (H a); right; eauto].
      * split; [intros _; split; [intros a d [E|(l0 & _ & E)]; discriminate|intros a [E|(l0 & _ & E)]; discriminate]|destruct u; reflexivity].
      * split; [intros _; split; [intros a d [E|(l0 & _ & E)]; discriminate|intros a [E|(l0 & _ & E)]; discriminate]|destruct u; reflexivity].
      * split; [intros _; split; [intros a d [E|(l0 & _ & E)]; discriminate|intros a [E|(l0 & _ & E)]; discriminate]|destruct u; reflexivity].
    + split; [intros _; split; [intros a d [E|(l0 & _ & E)]; discriminate|intros a [E|(l0 & _ & E)]; discriminate]|destruct u; reflexivity].
  - split; [intros _; split; intros; destruct H as [E|(l0 & E & _)]; discriminate|destruct u; reflexivity].
  - split; [intros _; split; intros; destruct H as [E|(l0 & E & _)]; discriminate|destruct u; reflexivity].
Qed.
Lemma strict_values_ok req vs u : strict_values req vs = Ok u <-> Forall (strictly_fine req) vs.
Proof.
  induction vs as [|v vs IH]; [destruct u; cbn; split; [constructor|reflexivity]|].
  cbn [strict_values]; rewrite bind_ok.
  assert (K : (exists a, match v with VNone => Ok tt | _ => if req && negb (is_container v) then Err BenchError else strict_tensor v end = Ok a) <-> strictly_fine req v).
  { unfold strictly_fine; destruct v as [|a d|a|l|l|o] eqn:Ev; [split; [auto|eexists; reflexivity]| | | | |];
    (rewrite <- Ev; split;
     [intros (w & Hw); right; destruct req; cbn [andb] in Hw;
       [destruct (is_container v) eqn:Ec; cbn [negb] in Hw; [|discriminate]; split; [intros _; apply container_iff; exact Ec|]; apply (strict_tensor_ok v w); exact Hw
       |split; [discriminate|]; apply (strict_tensor_ok v w); exact Hw]
     |intros [E|(H1 & H2)]; [subst v; discriminate|]; exists tt; destruct req; cbn [andb];
       [rewrite (proj2 (container_iff v) (H1 eq_refl)); cbn [negb]|]; apply strict_tensor_ok; exact H2]). }
  split.
  - intros (w & H1 & H2); constructor; [apply K; eauto|apply IH; exact H2].
  - intros H; inversion H as [|v' vs' Hv Hvs]; subst; destruct (proj2 K Hv) as (w & Hw); exists w; split; [exact Hw|apply IH; exact Hvs].
Qed.
Lemma len0_rows v n : len0 v = Some n <-> rows v n.
Proof.
  unfold len0, rows; split.
  - destruct v as [|a d|a|l|l|o]; try discriminate.
    + destruct (a_shape a) as [|m r] eqn:E; [discriminate|]; intros [= <-]; exists a, r; split; [exact E|right; right; eauto].
    + destruct (a_shape a) as [|m r] eqn:E; [discriminate|]; intros [= <-]; exists a, r; split; [exact E|left; reflexivity].
    + cbn [at_path]; destruct (get l "x") as [[|a d|a|l'|l'|o]|]; try discriminate;
        (destruct (a_shape a) as [|m r] eqn:E; [discriminate|]; intros [= <-]; exists a, r; split; [exact E|right]); [right; eauto|left; reflexivity].
  - intros (a & r & E & [->|[H|(d & [->|H])]]); try (rewrite E; reflexivity).
    + cbn [at_path] in H; destruct v as [|a' d'|a'|l|l|o]; try discriminate; destruct (get l "x") as [x|]; [injection H as ->; rewrite E; reflexivity|discriminate].
    + cbn [at_path] in H; destruct v as [|a' d'|a'|l|l|o]; try discriminate; destruct (get l "x") as [x|]; [injection H as ->; rewrite E; reflexivity|discriminate].
Qed.
