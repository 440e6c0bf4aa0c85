From Coq Require Import String Lia.
From Verif Require Import Prelude PyValue MfsModel MfsSpec.
Local Open Scope string_scope.
Local Open Scope list_scope.
Local Notation length := List.length.

Lemma lookup_cons k0 v0 d k : lookup ((k0, v0) :: d) k = if String.eqb k0 k then Some v0 else lookup d k.
Proof. unfold lookup. cbn [find fst]. destruct (String.eqb k0 k); reflexivity. Qed.
Lemma lookup_entry d k v : lookup d k = Some v <-> entry d k v.
Proof.
  unfold entry. induction d as [|[k0 v0] d IH]; [split; [discriminate|intros ([|p a] & b & E & _); discriminate]|]. rewrite lookup_cons. destruct (String.eqb_spec k0 k) as [->|N].
  - split; [intros [= ->]; exists [], d; split; [reflexivity|intros []]|]. intros ([|[k2 v2] a] & b & E & H); [injection E as -> ->; reflexivity|]. injection E as <- <- _. destruct H. left. reflexivity.
  - rewrite IH. split; intros (a & b & E & H).
    + exists ((k0, v0) :: a), b. split; [rewrite E; reflexivity|]. intros [E'|H']; [exact (N E')|exact (H H')].
    + destruct a as [|[k2 v2] a]; [injection E; congruence|]. injection E as <- <- ->. exists a, b. split; [reflexivity|]. intros H'. apply H. right. exact H'.
Qed.
Lemma lookup_none d k : lookup d k = None <-> no_entry d k.
Proof.
  unfold no_entry. induction d as [|[k0 v0] d IH]; [cbn; tauto|]. rewrite lookup_cons. cbn [map fst In]. destruct (String.eqb_spec k0 k) as [->|N]; [split; [discriminate|tauto]|]. rewrite IH. tauto.
Qed.
Lemma lookup_in d k v : NoDup (map fst d) -> (lookup d k = Some v <-> In (k, v) d).
Proof.
  induction d as [|[k0 v0] d IH]; intros H; [split; [discriminate|intros []]|]. rewrite lookup_cons. cbn [map fst] in H. apply NoDup_cons_iff in H. destruct H as [H1 H2]. cbn [In]. destruct (String.eqb_spec k0 k) as [->|N].
  - split; [intros [= ->]; left; reflexivity|]. intros [[= ->]|Hi]; [reflexivity|]. destruct H1. apply (in_map fst) in Hi. exact Hi.
  - rewrite (IH H2). split; [auto|]. intros [[= E]|Hi]; [congruence|exact Hi].
Qed.
Lemma lookup_alike d d' : NoDup (map fst d) -> alike (PDict d) (PDict d') -> forall k, match lookup d k with Some v => exists v', lookup d' k = Some v' /\ alike v v' | None => lookup d' k = None end.
Proof.
  intros H HA. inversion HA as [| | | | | |d0 e e' HP HF]; subst. intros k.
  assert (E : map fst d = map fst e) by (clear -HF; induction HF as [|x y l m [Hx _] _ IH]; cbn; [reflexivity|congruence]).
  assert (He : NoDup (map fst e)) by (rewrite <- E; exact H). assert (Hd' : NoDup (map fst d')) by (eapply Permutation_NoDup; [apply Permutation_map, HP|exact He]).
  destruct (lookup d k) as [v|] eqn:L.
  - apply (lookup_in _ _ _ H) in L. assert (K : exists v', In (k, v') e /\ alike v v').
    { clear -HF L. induction HF as [|x [k2 v2] l m [H1 H2] _ IH]; [destruct L|]. destruct L as [->|L]; [|destruct (IH L) as (v' & I & A); exists v'; split; [right; exact I|exact A]]. cbn in H1, H2. exists v2. split; [left; rewrite H1; reflexivity|exact H2]. }
    destruct K as (v' & I & A). exists v'. split; [|exact A]. apply (lookup_in _ _ _ Hd'). eapply Permutation_in; [exact HP|exact I].
  - apply lookup_none in L. apply lookup_none. unfold no_entry in *. intros Hi. apply L. rewrite E. eapply Permutation_in; [apply Permutation_sym, Permutation_map, HP|exact Hi].
Qed.
Lemma alike_int_inv z v : alike (PInt z) v -> v = PInt z.
Proof. intros H. inversion H. reflexivity. Qed.
Lemma alike_str_inv s v : alike (PStr s) v -> v = PStr s.
Proof. intros H. inversion H. reflexivity. Qed.
(* paths by lookup *)
Fixpoint walk (v : pyval) (r : list string) : option pyval := match r with [] => Some v | k :: r => match v with PDict d => match lookup d k with Some w => walk w r | None => None end | _ => None end end.
Lemma walk_path r : forall v w, walk v r = Some w <-> at_path v r w.
Proof.
  induction r as [|k r IH]; intros v w; cbn [walk].
  - split; [intros [= ->]; constructor|intros H; inversion H; reflexivity].
  - split.
    + destruct v as [| | | | | |d]; try discriminate. destruct (lookup d k) as [x|] eqn:L; [|discriminate]. intros H. apply lookup_entry in L. econstructor; [exact L|apply IH, H].
    + intros H. inversion H as [|d k' v' r' w' H1 H2]; subst. apply lookup_entry in H1. rewrite H1. apply IH, H2.
Qed.
Lemma walk_app a b : forall v, walk v (a ++ b) = match walk v a with Some w => walk w b | None => None end.
Proof. induction a as [|k a IH]; intros v; cbn [app walk]; [reflexivity|]. destruct v as [| | | | | |d]; try reflexivity. destruct (lookup d k) as [x|]; [apply IH|reflexivity]. Qed.
Lemma lookup_map {A} (f : A -> pyval) l k : lookup (map (fun kv => (fst kv, f (snd kv))) l) k = match find (fun kv : string * A => String.eqb (fst kv) k) l with Some kv => Some (f (snd kv)) | None => None end.
Proof. induction l as [|[k0 x] l IH]; [reflexivity|]. cbn [map fst snd]. rewrite lookup_cons. cbn [find fst]. destruct (String.eqb k0 k); [reflexivity|exact IH]. Qed.
Lemma find_in {A} (l : list (string * A)) k x : NoDup (map fst l) -> In (k, x) l -> find (fun kv => String.eqb (fst kv) k) l = Some (k, x).
Proof.
  induction l as [|[k0 y] l IH]; intros H Hi; [destruct Hi|]. cbn [map fst] in H. apply NoDup_cons_iff in H. destruct H as [H1 H2]. cbn [find fst]. destruct Hi as [[= -> ->]|Hi]; [rewrite String.eqb_refl; reflexivity|]. destruct (String.eqb_spec k0 k) as [->|]; [|apply IH; assumption]. destruct H1. apply (in_map fst) in Hi. exact Hi.
Qed.
Lemma part_walk p r a : in_part p r a -> walk (split_summary p) r = Some (shape_dtype (Some a)).
Proof.
  intros [b E|b E|b E|l k b E Hn Hi]; unfold split_summary; cbn [walk]; rewrite !lookup_cons; cbn [String.eqb Ascii.eqb Bool.eqb]; rewrite ?E; try reflexivity. rewrite lookup_map, (find_in l k (Some b) Hn Hi). reflexivity.
Qed.
Lemma data_walk d r a : in_data d r a -> walk (PDict (summary d)) r = Some (shape_dtype (Some a)).
Proof.
  intros [r' b H|p r' b E H]; unfold summary; cbn [walk]; rewrite !lookup_cons; cbn [String.eqb Ascii.eqb Bool.eqb]; rewrite ?E; apply part_walk, H.
Qed.
Lemma shape_walk a s : walk (shape_dtype (Some a)) ["shape"] = Some (PList (map PInt s)) <-> a_shape a = Some (Ok s).
Proof.
  assert (I : forall x y : list Z, map PInt x = map PInt y -> x = y) by (induction x as [|n x IH]; intros [|m y] E; try discriminate; [reflexivity|]; injection E as -> E; f_equal; apply IH, E).
  unfold shape_dtype. cbn [walk]. rewrite lookup_cons. cbn [String.eqb Ascii.eqb Bool.eqb]. destruct (a_shape a) as [[x|e]|]; cbn [app]; [rewrite lookup_cons; cbn; split; [intros [= E]; rewrite (I _ _ E); reflexivity|intros [= ->]; reflexivity]| |]; (destruct (a_dtype a) as [[t|e']|]; cbn; split; discriminate).
Qed.
Lemma dtype_walk a t : walk (shape_dtype (Some a)) ["dtype"] = Some (PStr t) <-> a_dtype a = Some (Ok t).
Proof.
  unfold shape_dtype. destruct (a_shape a) as [[x|e]|], (a_dtype a) as [[y|e']|]; cbn; split; try discriminate; intros [= ->]; reflexivity.
Qed.
Lemma read_ok {T} loads o (t : T) m : read T loads o t = Ok m <-> exists d s f c, loads t = Ok (PDict d) /\ entry d "schema_version" s /\ py_int o s = Ok (m_schema m) /\
  entry d "fingerprint" f /\ m_fingerprint m = py_str o f /\ entry d "created_at" c /\ m_created m = py_str o c /\ entry d "identity" (m_identity m) /\ entry d "dataset" (m_dataset m) /\
  entry_or_empty d "meta" (m_meta m) /\ entry_or_empty d "environment" (m_environment m).
Proof.
  assert (G : forall d k v, get_or d k (PDict []) = v <-> entry_or_empty d k v).
  { intros d k v. unfold get_or, entry_or_empty. rewrite <- lookup_entry, <- lookup_none. destruct (lookup d k) as [w|]; split; [intros ->; auto|intros [[= ->]|[H _]]; congruence|intros <-; auto|intros [H|[_ ->]]; [discriminate|reflexivity]]. }
  unfold read, of_value, need. destruct (loads t) as [v|e]; cbn [bind]; [|split; [discriminate|intros (d & s & f & c & E & _); discriminate]].
  destruct v as [| | | | | |d]; cbn [bind]; try (split; [intros X; discriminate X|intros (? & ? & ? & ? & E & _); discriminate E]).
  split.
  - destruct (lookup d "schema_version") as [s|] eqn:L1; cbn [bind]; [|discriminate]. destruct (py_int o s) as [z|] eqn:Ez; cbn [bind]; [|discriminate]. destruct (lookup d "fingerprint") as [f|] eqn:L2; cbn [bind]; [|discriminate]. destruct (lookup d "created_at") as [c|] eqn:L3; cbn [bind]; [|discriminate]. destruct (lookup d "identity") as [i|] eqn:L4; cbn [bind]; [|discriminate]. destruct (lookup d "dataset") as [x|] eqn:L5; cbn [bind]; [|discriminate].
    intros E. injection E as <-. exists d, s, f, c. cbn [m_schema m_fingerprint m_created m_identity m_dataset m_meta m_environment]. rewrite <- !lookup_entry, <- !G. repeat split; assumption.
  - intros (d0 & s & f & c & [= <-] & L1 & Ez & L2 & Ef & L3 & Ec & L4 & L5 & G1 & G2). apply lookup_entry in L1, L2, L3, L4, L5. apply G in G1, G2. rewrite L1. cbn [bind]. rewrite Ez. cbn [bind]. rewrite L2, L3, L4, L5. cbn [bind]. rewrite G1, G2, <- Ef, <- Ec. destruct m. reflexivity.
Qed.
