From Coq Require Import String Ascii Sorted Permutation Lia.
From Coq Require Import ZifyBool ZifyNat.
From Verif Require Import Prelude RegModel RegSpec.
Local Open Scope string_scope.
Local Open Scope list_scope.
Local Notation length := List.length.

(* ---- dictionaries *)
Lemma dput_get {A} (d : list (string * A)) k v k' : dget (dput d k v) k' = if String.eqb k k' then Some v else dget d k'.
Proof.
  induction d as [|[x w] d IH]; cbn; [reflexivity|]. destruct (String.eqb_spec x k) as [->|N]; cbn [dget].
  - destruct (String.eqb k k'); reflexivity.
  - rewrite IH. destruct (String.eqb_spec k k') as [->|N']; [|reflexivity]. destruct (String.eqb_spec x k'); [contradiction|reflexivity].
Qed.
Lemma dput_keys {A} (d : list (string * A)) k v x : In x (map fst (dput d k v)) <-> x = k \/ In x (map fst d).
Proof.
  induction d as [|[y w] d IH]; cbn; [intuition congruence|]. destruct (String.eqb_spec y k) as [->|N]; cbn; [intuition congruence|]. rewrite IH. intuition congruence.
Qed.
Lemma dput_NoDup {A} (d : list (string * A)) k v : NoDup (map fst d) -> NoDup (map fst (dput d k v)).
Proof.
  induction d as [|[y w] d IH]; cbn; intros H; [constructor; [intros []|constructor]|]. inversion H as [|? ? Hn Hd]; subst. destruct (String.eqb_spec y k) as [->|N]; cbn; [constructor; assumption|].
  constructor; [rewrite dput_keys; intros [->|Hy]; [now apply N|contradiction]|now apply IH].
Qed.
Lemma dget_In {A} (d : list (string * A)) k : In k (map fst d) <-> exists v, dget d k = Some v.
Proof.
  induction d as [|[y w] d IH]; cbn; [split; [intros []|intros (v & H); discriminate]|]. destruct (String.eqb_spec y k) as [->|N]; [split; [eexists; reflexivity|now left]|].
  rewrite IH. split; [intros [->|H]; [now exfalso; apply N|exact H]|intros H; now right].
Qed.
Lemma dget_NoDup_In {A} (d : list (string * A)) k v : NoDup (map fst d) -> (In (k, v) d <-> dget d k = Some v).
Proof.
  induction d as [|[y w] d IH]; cbn; intros H; [split; [intros []|discriminate]|]. inversion H as [|? ? Hn Hd]; subst. destruct (String.eqb_spec y k) as [->|N].
  - split; [intros [[= ->]|X]; [reflexivity|exfalso; apply Hn, in_map_iff; now exists (k, v)]|intros [= ->]; now left].
  - rewrite <- (IH Hd). split; [intros [[= -> ->]|X]; [now exfalso; apply N|exact X]|intros X; now right].
Qed.
Lemma dput_same {A} (d : list (string * A)) k v : dget d k = Some v -> dput d k v = d.
Proof. induction d as [|[y w] d IH]; cbn; [discriminate|]. destruct (String.eqb_spec y k) as [->|N]; [intros [= ->]; reflexivity|intros H; now rewrite IH]. Qed.

(* ---- sorted *)
Lemma ascii_compare_lt a b : Ascii.compare a b = Lt <-> (N_of_ascii a < N_of_ascii b)%N.
Proof. unfold Ascii.compare. apply N.compare_lt_iff. Qed.
Lemma ascii_compare_eq a b : Ascii.compare a b = Eq <-> a = b.
Proof. unfold Ascii.compare. rewrite N.compare_eq_iff. split; [intros H|intros ->; reflexivity]. rewrite <- (ascii_N_embedding a), <- (ascii_N_embedding b). now rewrite H. Qed.
Lemma string_lt_trans : forall a b c, String.compare a b = Lt -> String.compare b c = Lt -> String.compare a c = Lt.
Proof.
  induction a as [|x a IH]; intros [|y b] [|z c]; cbn; try discriminate; try reflexivity.
  destruct (Ascii.compare x y) eqn:E1; try discriminate; destruct (Ascii.compare y z) eqn:E2; try discriminate; intros H1 H2.
  - apply ascii_compare_eq in E1, E2. subst. rewrite (proj2 (ascii_compare_eq z z) eq_refl). exact (IH b c H1 H2).
  - apply ascii_compare_eq in E1. subst. now rewrite E2.
  - apply ascii_compare_eq in E2. subst. now rewrite E1.
  - apply ascii_compare_lt in E1, E2. now rewrite (proj2 (ascii_compare_lt x z) (N.lt_trans _ _ _ E1 E2)).
Qed.
Lemma ltb_lt a b : String.ltb a b = true <-> String.compare a b = Lt.
Proof. unfold String.ltb. destruct (String.compare a b); split; congruence. Qed.
Lemma leb_cases a b : String.leb a b = true -> a = b \/ String.compare a b = Lt.
Proof. unfold String.leb. destruct (String.compare a b) eqn:E; try discriminate; [left; now apply String.compare_eq_iff|now right]. Qed.
Lemma leb_false a b : String.leb a b = false -> String.compare b a = Lt.
Proof. unfold String.leb. rewrite (String.compare_antisym b a). destruct (String.compare a b); cbn; congruence. Qed.
Lemma insertS_In s l x : In x (insertS s l) <-> x = s \/ In x l.
Proof. induction l as [|y l IH]; cbn; [intuition congruence|]. destruct (String.leb s y); cbn; [intuition congruence|]. rewrite IH. intuition congruence. Qed.
Lemma sortS_In l x : In x (sortS l) <-> In x l.
Proof. induction l as [|y l IH]; cbn; [reflexivity|]. rewrite insertS_In. unfold sortS in IH. rewrite IH. intuition congruence. Qed.
Lemma insertS_sorted s l : alphabetical l -> ~ In s l -> alphabetical (insertS s l).
Proof.
  unfold alphabetical. induction 1 as [|y l Hs IH Hf]; intros Hn; cbn; [repeat constructor|]. destruct (String.leb s y) eqn:E.
  - assert (L : String.compare s y = Lt) by (destruct (leb_cases _ _ E) as [->|L]; [exfalso; apply Hn; now left|exact L]).
    constructor; [constructor; assumption|]. constructor; [now apply ltb_lt|]. rewrite Forall_forall in *. intros x Hx. apply ltb_lt. apply (string_lt_trans s y x L). apply ltb_lt, Hf, Hx.
  - constructor; [apply IH; intros H; apply Hn; now right|]. rewrite Forall_forall in *. intros x Hx. apply insertS_In in Hx as [->|Hx]; [apply ltb_lt, leb_false, E|now apply Hf].
Qed.
Lemma sortS_sorted l : NoDup l -> alphabetical (sortS l).
Proof. induction 1 as [|y l Hn Hd IH]; cbn; [constructor|]. apply insertS_sorted; [exact IH|]. intros H. apply Hn. now apply sortS_In. Qed.
Lemma alphabetical_filter f l : alphabetical l -> alphabetical (filter f l).
Proof.
  unfold alphabetical. induction 1 as [|y l Hs IH Hf]; cbn; [constructor|]. destruct (f y); [|exact IH]. constructor; [exact IH|]. rewrite Forall_forall in *. intros x Hx. apply filter_In in Hx as [Hx _]. now apply Hf.
Qed.

(* ---- colons *)
Lemma has_colon_colons s : has_colon s = true <-> (1 <= colons s)%nat.
Proof. induction s as [|a s IH]; cbn; [split; [discriminate|lia]|]. destruct (Ascii.eqb a ":"); cbn; [split; [lia|reflexivity]|exact IH]. Qed.
Lemma split_colon_length s : length (split_colon s) = S (colons s).
Proof. induction s as [|a s IH]; cbn; [reflexivity|]. destruct (Ascii.eqb a ":"); cbn; [now rewrite IH|]. destruct (split_colon s) as [|p ps]; cbn in *; lia. Qed.
Lemma split_colon_one s c : split_colon s = [c] <-> s = c /\ colons c = O.
Proof.
  revert c. induction s as [|a s IH]; intros c; cbn [split_colon].
  - split; [intros [= <-]; split; reflexivity|intros [<- _]; reflexivity].
  - destruct (Ascii.eqb a ":") eqn:E.
    + split; [|intros [<- H]; cbn in H; rewrite E in H; lia]. intros [= _ H]. pose proof (split_colon_length s) as L. rewrite H in L. discriminate.
    + destruct (split_colon s) as [|q qs] eqn:ES.
      * pose proof (split_colon_length s) as L. rewrite ES in L. discriminate.
      * split.
        -- intros [= <- ->]. destruct (proj1 (IH q) eq_refl) as [-> Hq]. split; [reflexivity|]. cbn. now rewrite E.
        -- intros [<- H]. cbn in H. rewrite E in H. pose proof (proj2 (IH s) (conj eq_refl H)) as [= -> ->]. reflexivity.
Qed.
Lemma split_colon_two s m c : split_colon s = [m; c] <-> s = (m ++ ":" ++ c)%string /\ colons m = O /\ colons c = O.
Proof.
  revert m c. induction s as [|a s IH]; intros m c; cbn [split_colon].
  - split; [discriminate|]. intros (H & _). destruct m; discriminate.
  - destruct (Ascii.eqb_spec a ":") as [->|N].
    + split.
      * intros [= <- H]. apply split_colon_one in H as [-> Hc]. split; [reflexivity|]. split; [reflexivity|exact Hc].
      * intros (H & Hm & Hc). destruct m as [|b m]; cbn in H; [injection H as ->; f_equal; now apply split_colon_one|]. injection H as <- ->. cbn in Hm. lia.
    + split.
      * intros H. destruct (split_colon s) as [|p ps] eqn:E; [discriminate|]. injection H as <- ->. destruct (proj1 (IH p c) eq_refl) as (-> & Hm & Hc). split; [reflexivity|]. split; [|exact Hc].
        cbn. destruct (Ascii.eqb_spec a ":"); [contradiction|exact Hm].
      * intros (H & Hm & Hc). destruct m as [|b m]; cbn in H; [injection H as -> _; contradiction|]. injection H as <- ->. cbn in Hm. destruct (Ascii.eqb a ":"); [cbn in Hm; lia|].
        rewrite (proj2 (IH m c)); [reflexivity|]. split; [reflexivity|]. split; [exact Hm|exact Hc].
Qed.

(* ---- methods *)
Lemma known_status_b s : String.eqb s "implemented" || String.eqb s "planned" = true <-> known_status s.
Proof. unfold known_status. rewrite orb_true_iff, !String.eqb_eq. reflexivity. Qed.
Lemma register_method_iff reg id path status reg' : register_method reg id path status = Ok reg' <->
  (id <> "" /\ (1 <= colons path)%nat /\ known_status status /\ forall path' status', is_registered reg id path' status' -> path' = path) /\ reg' = dput reg id {| mr_path := path; mr_status := status |}.
Proof.
  unfold register_method, is_registered. destruct (String.eqb_spec id "") as [->|N1]; [split; [discriminate|intros [[H _] _]; now exfalso; apply H]|].
  destruct (has_colon path) eqn:E1; cbn [negb]; [|split; [discriminate|intros [(_ & H & _) _]; apply has_colon_colons in H; congruence]].
  apply has_colon_colons in E1.
  assert (CL : (match dget reg id with Some r => negb (String.eqb (mr_path r) path) | None => false end = true) <-> ~ (forall path' status', dget reg id = Some {| mr_path := path'; mr_status := status' |} -> path' = path)).
  { destruct (dget reg id) as [[p s]|]; cbn; [destruct (String.eqb_spec p path) as [->|N]; cbn|].
    - split; [discriminate|intros H; exfalso; apply H; intros ? ? [= <- _]; reflexivity].
    - split; [intros _ H; apply N; exact (H p s eq_refl)|reflexivity].
    - split; [discriminate|intros H; exfalso; apply H; discriminate]. }
  destruct (match dget reg id with Some r => negb (String.eqb (mr_path r) path) | None => false end) eqn:EC.
  - split; [discriminate|]. intros [(_ & _ & _ & H) _]. exfalso. exact (proj1 CL eq_refl H).
  - assert (OKP : forall path' status', dget reg id = Some {| mr_path := path'; mr_status := status' |} -> path' = path).
    { intros p' s' H. rewrite H in EC. cbn in EC. destruct (String.eqb_spec p' path); [assumption|discriminate]. }
    destruct (String.eqb status "implemented" || String.eqb status "planned") eqn:ES; cbn [negb].
    + apply known_status_b in ES. split; [intros [= <-]; split; [|reflexivity]; split; [exact N1|]; split; [exact E1|]; split; [exact ES|exact OKP]|intros [_ ->]; reflexivity].
    + split; [discriminate|]. intros [(_ & _ & H & _) _]. apply known_status_b in H. congruence.
Qed.
Lemma register_method_err reg id path status e : register_method reg id path status = Err e -> e = ValueError.
Proof. unfold register_method. repeat match goal with |- context[if ?b then _ else _] => destruct b end; congruence. Qed.

(* nothing is ever lost, and paths stay *)
Definition paths_kept (a b : methods) : Prop := forall id r, dget a id = Some r -> exists r', dget b id = Some r' /\ mr_path r' = mr_path r.
Lemma paths_kept_refl a : paths_kept a a. Proof. intros id r H. now exists r. Qed.
Lemma paths_kept_trans a b c : paths_kept a b -> paths_kept b c -> paths_kept a c.
Proof. intros H1 H2 id r H. destruct (H1 id r H) as (r1 & E1 & P1). destruct (H2 id r1 E1) as (r2 & E2 & P2). exists r2. split; [exact E2|congruence]. Qed.
Lemma register_method_kept reg id path status reg' : register_method reg id path status = Ok reg' -> paths_kept reg reg'.
Proof.
  intros H. apply register_method_iff in H as [(_ & _ & _ & HP) ->]. intros i r Hr. rewrite dput_get. destruct (String.eqb_spec id i) as [->|N]; [|now exists r].
  eexists. split; [reflexivity|]. cbn. destruct r as [p s]. symmetry. exact (HP p s Hr).
Qed.
Lemma register_all_kept calls : forall reg, paths_kept reg (fst (register_all calls reg)).
Proof.
  induction calls as [|[[id path] status] calls IH]; intros reg; cbn; [apply paths_kept_refl|]. destruct (register_method reg id path status) as [reg'|e] eqn:E; [|apply paths_kept_refl].
  eapply paths_kept_trans; [eapply register_method_kept; exact E|apply IH].
Qed.
Lemma register_method_NoDup reg id path status reg' : register_method reg id path status = Ok reg' -> NoDup (map fst reg) -> NoDup (map fst reg').
Proof. intros H Hn. apply register_method_iff in H as [_ ->]. now apply dput_NoDup. Qed.
Lemma register_all_NoDup calls : forall reg, NoDup (map fst reg) -> NoDup (map fst (fst (register_all calls reg))).
Proof.
  induction calls as [|[[id path] status] calls IH]; intros reg Hn; cbn; [exact Hn|]. destruct (register_method reg id path status) as [reg'|e] eqn:E; [|exact Hn]. apply IH. eapply register_method_NoDup; [exact E|exact Hn].
Qed.
Lemma register_all_err calls : forall reg reg' e, register_all calls reg = (reg', Some e) -> e = ValueError.
Proof. induction calls as [|[[id path] status] calls IH]; intros reg reg' e; cbn; [discriminate|]. destruct (register_method reg id path status) as [r|x] eqn:E; [apply IH|]. intros [= _ <-]. exact (register_method_err _ _ _ _ _ E). Qed.
(* the outcome of the built-in calls *)
Lemma register_all_ok calls : acceptable calls -> forall reg, ~ taken calls reg -> exists reg', register_all calls reg = (reg', None) /\
  (forall id, dget reg' id = match find (fun c => String.eqb (fst (fst c)) id) calls with Some c => Some {| mr_path := snd (fst c); mr_status := snd c |} | None => dget reg id end).
Proof.
  induction calls as [|[[id path] status] calls IH]; intros (HN & HA) reg HT; cbn [register_all].
  - exists reg. split; reflexivity.
  - cbn [map fst] in HN. inversion HN as [|? ? Hn Hd]; subst.
    assert (E : register_method reg id path status = Ok (dput reg id {| mr_path := path; mr_status := status |})).
    { apply register_method_iff. split; [|reflexivity]. destruct (HA id path status (or_introl eq_refl)) as (A & B & C). split; [exact A|]. split; [exact B|]. split; [exact C|].
      intros p' s' Hr. destruct (string_dec p' path) as [|N]; [assumption|]. exfalso. apply HT. exists id, path, status, p', s'. split; [now left|]. split; [exact Hr|exact N]. }
    rewrite E. set (reg1 := dput reg id _).
    destruct (IH (conj Hd (fun i p s Hi => HA i p s (or_intror Hi))) reg1) as (reg' & E' & G).
    { intros (i & p & s & p' & s' & Hin & Hr & Hp). apply HT. exists i, p, s, p', s'. split; [now right|]. split; [|exact Hp].
      unfold is_registered, reg1 in Hr. rewrite dput_get in Hr. destruct (String.eqb_spec id i) as [->|N]; [exfalso; apply Hn, in_map_iff; now exists (i, p, s)|exact Hr]. }
    exists reg'. split; [exact E'|]. intros i. rewrite G. cbn [find fst snd]. destruct (String.eqb_spec id i) as [->|N].
    + assert (F : find (fun c => String.eqb (fst (fst c)) i) calls = None).
      { destruct (find _ calls) as [c|] eqn:F; [|reflexivity]. apply find_some in F as [Hin Hi]. apply String.eqb_eq in Hi. exfalso. apply Hn, in_map_iff. now exists c. }
      rewrite F. unfold reg1. rewrite dput_get, String.eqb_refl. reflexivity.
    + destruct (find _ calls); [reflexivity|]. unfold reg1. rewrite dput_get. destruct (String.eqb_spec id i); [contradiction|reflexivity].
Qed.
Lemma register_all_taken calls : forall reg, taken calls reg -> exists reg', register_all calls reg = (reg', Some ValueError).
Proof.
  induction calls as [|[[id path] status] calls IH]; intros reg (i & p & s & p' & s' & Hin & Hr & Hp); [destruct Hin|]. cbn [register_all].
  destruct (register_method reg id path status) as [reg1|e] eqn:E; [|exists reg; f_equal; f_equal; exact (register_method_err _ _ _ _ _ E)].
  destruct Hin as [[= -> -> ->]|Hin].
  - apply register_method_iff in E as [(_ & _ & _ & HH) _]. exfalso. apply Hp. exact (HH p' s' Hr).
  - apply IH. destruct (register_method_kept _ _ _ _ _ E i _ Hr) as ([q t] & E1 & P1). cbn in P1. subst q. exists i, p, s, p', t. auto.
Qed.
Lemma taken_dec calls reg : taken calls reg \/ ~ taken calls reg.
Proof.
  induction calls as [|[[id path] status] calls IH].
  - right. intros (? & ? & ? & ? & ? & [] & _).
  - destruct IH as [(i & p & s & p' & s' & Hin & H)|IH]; [left; exists i, p, s, p', s'; split; [now right|exact H]|].
    destruct (dget reg id) as [[q t]|] eqn:E.
    + destruct (string_dec q path) as [->|N].
      * right. intros (i & p & s & p' & s' & [[= <- <- <-]|Hin] & Hr & Hp); [unfold is_registered in Hr; rewrite E in Hr; injection Hr as <- _; now apply Hp|apply IH; exists i, p, s, p', s'; auto].
      * left. exists id, path, status, q, t. split; [now left|]. split; [exact E|exact N].
    + right. intros (i & p & s & p' & s' & [[= <- <- <-]|Hin] & Hr & Hp); [unfold is_registered in Hr; congruence|apply IH; exists i, p, s, p', s'; auto].
Qed.
Lemma find_call (calls : list (string * string * string)) id path status : NoDup (map (fun c => fst (fst c)) calls) -> In (id, path, status) calls ->
  find (fun c => String.eqb (fst (fst c)) id) calls = Some (id, path, status).
Proof.
  induction calls as [|[[i p] s] bs IH]; intros HN Hin; [destruct Hin|]. cbn in *. inversion HN as [|? ? N1 N2]; subst. destruct Hin as [[= -> -> ->]|Hin]; [now rewrite String.eqb_refl|].
  destruct (String.eqb_spec i id) as [->|N]; [exfalso; apply N1, in_map_iff; exists (id, path, status); now split|now apply IH].
Qed.
Section Histories.
Variable C : Type.
Variable import_class : string -> string -> result C.
Variable builtins : list (string * string * string).
Lemma step_kept reg c : paths_kept reg (fst (method_step C import_class builtins reg c)).
Proof using Type.
  destruct c as [id path status|only|id]; cbn [method_step].
  - destruct (register_method reg id path status) as [reg'|e] eqn:E; cbn [fst]; [eapply register_method_kept; exact E|apply paths_kept_refl].
  - pose proof (register_all_kept builtins reg) as H. destruct (register_all builtins reg). exact H.
  - pose proof (register_all_kept builtins reg) as H. destruct (register_all builtins reg). exact H.
Qed.
Lemma run_kept cs : forall reg, paths_kept reg (method_run C import_class builtins reg cs).
Proof using Type. induction cs as [|c cs IH]; intros reg; cbn; [apply paths_kept_refl|]. eapply paths_kept_trans; [apply step_kept|apply IH]. Qed.
Lemma step_NoDup reg c : NoDup (map fst reg) -> NoDup (map fst (fst (method_step C import_class builtins reg c))).
Proof using Type.
  intros Hn. destruct c as [id path status|only|id]; cbn [method_step].
  - destruct (register_method reg id path status) as [reg'|e] eqn:E; cbn [fst]; [eapply register_method_NoDup; [exact E|exact Hn]|exact Hn].
  - pose proof (register_all_NoDup builtins reg Hn) as H. destruct (register_all builtins reg). exact H.
  - pose proof (register_all_NoDup builtins reg Hn) as H. destruct (register_all builtins reg). exact H.
Qed.
Lemma run_NoDup cs : forall reg, NoDup (map fst reg) -> NoDup (map fst (method_run C import_class builtins reg cs)).
Proof using Type. induction cs as [|c cs IH]; intros reg Hn; cbn; [exact Hn|]. apply IH, step_NoDup, Hn. Qed.
End Histories.
Lemma available_ids_spec reg only : NoDup (map fst reg) -> alphabetical (available_ids reg only) /\
  forall id, In id (available_ids reg only) <-> exists path status, is_registered reg id path status /\ (only = true -> status <> "planned").
Proof.
  intros Hn. unfold available_ids, is_registered. pose proof (sortS_sorted _ Hn) as HS. split.
  - destruct only; [apply alphabetical_filter; exact HS|exact HS].
  - intros id. destruct only.
    + rewrite filter_In, sortS_In, dget_In. split.
      * intros [([p s] & E) H]. rewrite E in H. cbn in H. exists p, s. split; [exact E|]. intros _ ->. discriminate.
      * intros (p & s & E & H). split; [now eexists; exact E|]. rewrite E. cbn. destruct (String.eqb_spec s "planned"); [exfalso; now apply H|reflexivity].
    + rewrite sortS_In, dget_In. split; [intros ([p s] & E); exists p, s; split; [exact E|discriminate]|intros (p & s & E & _); eexists; exact E].
Qed.

(* ---- classifiers *)
Definition below (a b : classifiers) : Prop := forall k c, dget a k = Some c -> exists c', dget b k = Some c' /\ extends c c'.
Lemma extends_refl c : extends c c. Proof. split; [reflexivity|]. split; [reflexivity|]. auto. Qed.
Lemma extends_trans a b c : extends a b -> extends b c -> extends a c.
Proof. intros (A1 & A2 & A3) (B1 & B2 & B3). split; [congruence|]. split; [congruence|]. auto. Qed.
Lemma below_refl a : below a a. Proof. intros k c H. exists c. split; [exact H|apply extends_refl]. Qed.
Lemma below_trans a b c : below a b -> below b c -> below a c.
Proof. intros H1 H2 k x H. destruct (H1 k x H) as (y & E1 & P1). destruct (H2 k y E1) as (z & E2 & P2). exists z. split; [exact E2|eapply extends_trans; eassumption]. Qed.
Lemma same_strings_iff a b : same_strings a b = true <-> a = b.
Proof. unfold same_strings. destruct (list_eq_dec string_dec a b); split; congruence. Qed.
Lemma register_classifier_iff reg k d p reg' : register_classifier reg k d p = Ok reg' <->
  (forall c, dget reg k = Some c -> cl_description c = d /\ cl_preferred c = p) /\
  reg' = match dget reg k with Some _ => reg | None => dput reg k {| cl_description := d; cl_preferred := p; cl_backends := [] |} end.
Proof.
  unfold register_classifier. destruct (dget reg k) as [c|] eqn:E.
  - destruct (String.eqb_spec (cl_description c) d) as [Ed|Nd]; cbn [negb orb].
    + destruct (same_strings (cl_preferred c) p) eqn:Es; cbn [negb].
      * apply same_strings_iff in Es. split; [intros [= <-]; split; [intros ? [= <-]; auto|reflexivity]|intros [_ ->]; reflexivity].
      * split; [discriminate|]. intros [H _]. destruct (H c eq_refl) as [_ Hp]. apply same_strings_iff in Hp. congruence.
    + split; [discriminate|]. intros [H _]. destruct (H c eq_refl). contradiction.
  - split; [intros [= <-]; split; [discriminate|reflexivity]|intros [_ ->]; reflexivity].
Qed.
Lemma register_classifier_err reg k d p e : register_classifier reg k d p = Err e -> e = ValueError.
Proof. unfold register_classifier. destruct (dget reg k); [|discriminate]. destruct (_ || _); congruence. Qed.
Lemma register_backend_iff reg k n b reg' : register_backend reg k n b = Ok reg' <->
  exists c, dget reg k = Some c /\ dget (cl_backends c) n = None /\
    reg' = dput reg k {| cl_description := cl_description c; cl_preferred := cl_preferred c; cl_backends := dput (cl_backends c) n b |}.
Proof.
  unfold register_backend. destruct (dget reg k) as [c|]; [|split; [discriminate|intros (? & H & _); discriminate]].
  destruct (dget (cl_backends c) n) eqn:E.
  - split; [discriminate|]. intros (? & [= <-] & H & _). congruence.
  - split; [intros [= <-]; exists c; auto|]. intros (? & [= <-] & _ & ->). reflexivity.
Qed.
Lemma register_classifier_below reg k d p reg' : register_classifier reg k d p = Ok reg' -> below reg reg'.
Proof.
  intros H. apply register_classifier_iff in H as [_ ->]. destruct (dget reg k) eqn:E; [apply below_refl|]. intros i c Hc. rewrite dput_get. destruct (String.eqb_spec k i) as [->|N]; [congruence|]. exists c. split; [exact Hc|apply extends_refl].
Qed.
Lemma register_backend_below reg k n b reg' : register_backend reg k n b = Ok reg' -> below reg reg'.
Proof.
  intros H. apply register_backend_iff in H as (c & E & En & ->). intros i x Hx. rewrite dput_get. destruct (String.eqb_spec k i) as [->|N]; [|exists x; split; [exact Hx|apply extends_refl]].
  rewrite E in Hx. injection Hx as <-. eexists. split; [reflexivity|]. split; [reflexivity|]. split; [reflexivity|]. intros m y Hy. cbn. rewrite dput_get. destruct (String.eqb_spec n m) as [->|N]; [congruence|exact Hy].
Qed.
Lemma register_backends_below bs k : forall reg, below reg (fst (register_backends reg k bs)).
Proof.
  induction bs as [|[n b] bs IH]; intros reg; cbn; [apply below_refl|]. destruct (register_backend reg k n b) as [r|e] eqn:E; [|apply below_refl]. eapply below_trans; [eapply register_backend_below; exact E|apply IH].
Qed.
Lemma register_entries_below es : forall reg, below reg (fst (register_entries es reg)).
Proof.
  induction es as [|e es IH]; intros reg; cbn; [apply below_refl|]. destruct (register_classifier reg _ _ _) as [r|x] eqn:E; [|apply below_refl].
  pose proof (register_backends_below (en_backends e) (en_key e) r) as B. destruct (register_backends r (en_key e) (en_backends e)) as [r2 [x|]]; cbn [fst] in *.
  - eapply below_trans; [eapply register_classifier_below; exact E|exact B].
  - eapply below_trans; [eapply register_classifier_below; exact E|]. eapply below_trans; [exact B|apply IH].
Qed.
(* what succeeds on a larger registry succeeds on a smaller one *)
Lemma register_backends_mono bs k : forall a b, below a b -> (exists c, dget a k = Some c) -> snd (register_backends b k bs) = None ->
  snd (register_backends a k bs) = None /\ below (fst (register_backends a k bs)) (fst (register_backends b k bs)).
Proof.
  induction bs as [|[n x] bs IH]; intros a b AB (c & Hc); cbn [register_backends]; [cbn; auto|].
  destruct (register_backend b k n x) as [b'|e] eqn:Eb; [|discriminate]. intros H. pose proof Eb as Eb'. apply register_backend_iff in Eb' as (cb & Ecb & Enb & ->).
  destruct (AB k c Hc) as (cb' & E' & (X1 & X2 & X3)). rewrite Ecb in E'. injection E' as <-.
  assert (En : dget (cl_backends c) n = None) by (destruct (dget (cl_backends c) n) as [y|] eqn:E; [rewrite (X3 n y E) in Enb; discriminate|reflexivity]).
  rewrite (proj2 (register_backend_iff a k n x _) (ex_intro _ c (conj Hc (conj En eq_refl)))).
  apply IH; [|rewrite dput_get, String.eqb_refl; eauto|exact H]. intros i y. rewrite !dput_get. destruct (String.eqb_spec k i) as [->|N]; [|apply AB].
  intros [= <-]. eexists. split; [reflexivity|]. split; [exact X1|]. split; [exact X2|]. intros m z. cbn. rewrite !dput_get. destruct (String.eqb n m); [auto|apply X3].
Qed.
Lemma register_entries_mono es : forall a b, below a b -> snd (register_entries es b) = None -> snd (register_entries es a) = None.
Proof.
  induction es as [|e es IH]; intros a b AB; cbn [register_entries]; [reflexivity|].
  destruct (register_classifier b _ _ _) as [b1|x] eqn:Eb; [|discriminate]. apply register_classifier_iff in Eb as [Hb Eb1].
  assert (Ha : forall c, dget a (en_key e) = Some c -> cl_description c = en_description e /\ cl_preferred c = en_preferred e).
  { intros c Hc. destruct (AB _ _ Hc) as (c' & E' & (X1 & X2 & _)). destruct (Hb c' E'). split; congruence. }
  rewrite (proj2 (register_classifier_iff a _ _ _ _) (conj Ha eq_refl)). set (a1 := match dget a (en_key e) with Some _ => a | None => _ end).
  assert (A1 : exists c, dget a1 (en_key e) = Some c).
  { unfold a1. destruct (dget a (en_key e)) as [c|] eqn:E; [exists c; exact E|]. rewrite dput_get, String.eqb_refl. eauto. }
  assert (AB1 : below a1 b1).
  { subst b1. unfold a1. intros i c Hc. destruct (dget a (en_key e)) as [ca|] eqn:Ea.
    - destruct (AB _ _ Ea) as (cb & Ecb & _). rewrite Ecb. now apply AB.
    - rewrite dput_get in Hc. destruct (String.eqb_spec (en_key e) i) as [<-|N].
      + injection Hc as <-. destruct (dget b (en_key e)) as [cb|] eqn:Ecb.
        * exists cb. split; [exact Ecb|]. destruct (Hb cb eq_refl). split; [assumption|]. split; [assumption|]. cbn. discriminate.
        * rewrite dput_get, String.eqb_refl. eexists. split; [reflexivity|apply extends_refl].
      + destruct (AB i c Hc) as (c' & E' & X). destruct (dget b (en_key e)); [eauto|]. rewrite dput_get. destruct (String.eqb_spec (en_key e) i); [contradiction|eauto]. }
  pose proof (register_backends_mono (en_backends e) (en_key e) a1 b1 AB1 A1) as M.
  destruct (register_backends b1 (en_key e) (en_backends e)) as [b2 [x|]]; [discriminate|]. intros H. destruct (M eq_refl) as [M1 M2].
  destruct (register_backends a1 (en_key e) (en_backends e)) as [a2 [x|]]; cbn in M1, M2; [discriminate|]. exact (IH a2 b2 M2 H).
Qed.
(* what they leave *)
Lemma register_backends_holds bs k : forall reg, snd (register_backends reg k bs) = None ->
  forall c, dget reg k = Some c -> exists c', dget (fst (register_backends reg k bs)) k = Some c' /\ extends c c' /\ forall n b, In (n, b) bs -> dget (cl_backends c') n = Some b.
Proof.
  induction bs as [|[n x] bs IH]; intros reg; cbn [register_backends]; intros H c Hc; [exists c; split; [exact Hc|]; split; [apply extends_refl|intros ? ? []]|].
  destruct (register_backend reg k n x) as [r|e] eqn:E; [|discriminate]. pose proof (register_backend_below _ _ _ _ _ E k c Hc) as (c1 & E1 & X1).
  destruct (IH r H c1 E1) as (c' & E' & X' & G). exists c'. split; [exact E'|]. split; [eapply extends_trans; eassumption|]. intros m b [[= -> ->]|Hin]; [|now apply G].
  apply register_backend_iff in E as (c0 & E0 & _ & ->). rewrite dput_get, String.eqb_refl in E1. injection E1 as <-. destruct X' as (_ & _ & X3). apply X3. cbn. rewrite dput_get, String.eqb_refl. reflexivity.
Qed.
Lemma holds_below a b e : below a b -> holds_entry a e -> holds_entry b e.
Proof.
  intros AB (c & E & H1 & H2 & H3). destruct (AB _ _ E) as (c' & E' & (X1 & X2 & X3)). exists c'. split; [exact E'|]. split; [congruence|]. split; [congruence|]. intros n x Hx. apply X3, H3, Hx.
Qed.
Lemma register_entries_holds es : forall reg, snd (register_entries es reg) = None -> forall e, In e es -> holds_entry (fst (register_entries es reg)) e.
Proof.
  induction es as [|e es IH]; intros reg; cbn [register_entries]; [intros _ e []|].
  destruct (register_classifier reg _ _ _) as [r|x] eqn:E; [|discriminate].
  assert (exists c, dget r (en_key e) = Some c /\ cl_description c = en_description e /\ cl_preferred c = en_preferred e) as (c & Ec & H1 & H2).
  { apply register_classifier_iff in E as [H ->]. destruct (dget reg (en_key e)) as [c|] eqn:Ec; [exists c; split; [exact Ec|]; exact (H c eq_refl)|]. rewrite dput_get, String.eqb_refl. eexists. split; [reflexivity|]. split; reflexivity. }
  pose proof (register_backends_holds (en_backends e) (en_key e) r) as B. destruct (register_backends r (en_key e) (en_backends e)) as [r2 [x|]]; [discriminate|]. cbn [fst snd] in *. intros H e' [<-|Hin]; [|now apply IH].
  destruct (B eq_refl c Ec) as (c' & E' & (X1 & X2 & _) & G). apply (holds_below r2); [apply register_entries_below|]. exists c'. split; [exact E'|]. split; [congruence|]. split; [congruence|exact G].
Qed.
(* when they succeed *)
Lemma register_backends_free bs k : forall reg c, dget reg k = Some c -> NoDup (map fst bs) ->
  (snd (register_backends reg k bs) = None <-> forall n b, In (n, b) bs -> dget (cl_backends c) n = None).
Proof.
  induction bs as [|[n x] bs IH]; intros reg c Hc Hn; cbn [register_backends]; [split; [intros _ ? ? []|reflexivity]|]. cbn in Hn. inversion Hn as [|? ? N1 N2]; subst.
  destruct (register_backend reg k n x) as [r|e] eqn:E.
  - apply register_backend_iff in E as (c0 & E0 & En & ->). rewrite Hc in E0. injection E0 as <-.
    rewrite (IH (dput reg k {| cl_description := cl_description c; cl_preferred := cl_preferred c; cl_backends := dput (cl_backends c) n x |})); [|rewrite dput_get, String.eqb_refl; reflexivity|exact N2].
    cbn [cl_backends]. split; intros H m b Hin.
    + destruct Hin as [[= <- <-]|Hin]; [exact En|]. specialize (H m b Hin). rewrite dput_get in H. destruct (String.eqb_spec n m); [discriminate|exact H].
    + rewrite dput_get. destruct (String.eqb_spec n m) as [->|N]; [exfalso; apply N1, in_map_iff; now exists (m, b)|]. apply (H m b). now right.
  - split; [discriminate|]. intros H. unfold register_backend in E. rewrite Hc, (H n x (or_introl eq_refl)) in E. discriminate.
Qed.
Lemma register_backends_other bs k : forall reg i, i <> k -> dget (fst (register_backends reg k bs)) i = dget reg i.
Proof.
  induction bs as [|[n x] bs IH]; intros reg i Ni; cbn [register_backends]; [reflexivity|]. destruct (register_backend reg k n x) as [r|e] eqn:E; [|reflexivity]. rewrite IH by exact Ni.
  apply register_backend_iff in E as (c & _ & _ & ->). rewrite dput_get. destruct (String.eqb_spec k i); [congruence|reflexivity].
Qed.
Lemma register_entries_free es : well_formed es -> forall reg, snd (register_entries es reg) = None <-> forall e, In e es -> free_for reg e.
Proof.
  induction es as [|e es IH]; intros [WN WB] reg; cbn [register_entries]; [split; [intros _ ? []|reflexivity]|]. cbn in WN. inversion WN as [|? ? N1 N2]; subst.
  assert (W' : well_formed es) by (split; [exact N2|intros x Hx; apply WB; now right]).
  destruct (register_classifier reg (en_key e) (en_description e) (en_preferred e)) as [r|x] eqn:E.
  - pose proof E as E0. apply register_classifier_iff in E0 as [H0 ER].
    assert (exists c, dget r (en_key e) = Some c /\ forall n, dget (cl_backends c) n = match dget reg (en_key e) with Some c => dget (cl_backends c) n | None => None end) as (c & Ec & Gc).
    { subst r. destruct (dget reg (en_key e)) as [c|] eqn:Ec; [exists c; auto|]. rewrite dput_get, String.eqb_refl. eexists. split; reflexivity. }
    pose proof (register_backends_free (en_backends e) (en_key e) r c Ec (WB e (or_introl eq_refl))) as F.
    assert (O : forall i, i <> en_key e -> dget (fst (register_backends r (en_key e) (en_backends e))) i = dget reg i).
    { intros i Ni. rewrite register_backends_other by exact Ni. subst r. destruct (dget reg (en_key e)); [reflexivity|]. rewrite dput_get. destruct (String.eqb_spec (en_key e) i); [congruence|reflexivity]. }
    assert (FE : free_for reg e <-> forall n b, In (n, b) (en_backends e) -> dget (cl_backends c) n = None).
    { unfold free_for. split.
      - intros H n b Hin. rewrite Gc. destruct (dget reg (en_key e)) as [c0|]; [|reflexivity]. destruct (H c0 eq_refl) as (_ & _ & H'). exact (H' n b Hin).
      - intros H c0 Hc0. destruct (H0 c0 Hc0). split; [assumption|]. split; [assumption|]. intros n b Hin. specialize (H n b Hin). rewrite Gc, Hc0 in H. exact H. }
    assert (FO : forall e', In e' es -> (free_for (fst (register_backends r (en_key e) (en_backends e))) e' <-> free_for reg e')).
    { intros e' Hin. unfold free_for. rewrite O; [reflexivity|]. intros EQ. apply N1. rewrite <- EQ. now apply in_map. }
    destruct (register_backends r (en_key e) (en_backends e)) as [r2 [x|]]; cbn [fst snd] in *.
    + split; [discriminate|]. intros H. exfalso. pose proof (proj2 F (proj1 FE (H e (or_introl eq_refl)))) as X. discriminate X.
    + rewrite (IH W'). split.
      * intros H e' [<-|Hin]; [exact (proj2 FE (proj1 F eq_refl))|]. apply FO; [exact Hin|]. now apply H.
      * intros H e' Hin. apply FO; [exact Hin|]. apply H. now right.
  - split; [discriminate|]. intros H. specialize (H e (or_introl eq_refl)). exfalso.
    assert (A : forall c, dget reg (en_key e) = Some c -> cl_description c = en_description e /\ cl_preferred c = en_preferred e) by (intros c Hc; destruct (H c Hc) as (A & B & _); auto).
    rewrite (proj2 (register_classifier_iff reg _ _ _ _) (conj A eq_refl)) in E. discriminate.
Qed.
Section ClfHistories.
Variable shipped : list entry.
Lemma ensure_below st : below (fst st) (fst (fst (ensure_bootstrap shipped st))).
Proof using Type.
  unfold ensure_bootstrap. destruct (snd st); [apply below_refl|]. pose proof (register_entries_below shipped (fst st)) as B. destruct (register_entries shipped (fst st)) as [r [e|]]; exact B.
Qed.
Lemma clf_step_below st c : below (fst st) (fst (fst (clf_step shipped st c))).
Proof using Type.
  destruct c as [k d p|k n b| |k|k n]; cbn [clf_step].
  - destruct (register_classifier (fst st) k d p) as [r|e] eqn:E; cbn [fst]; [eapply register_classifier_below; exact E|apply below_refl].
  - destruct (register_backend (fst st) k n b) as [r|e] eqn:E; cbn [fst]; [eapply register_backend_below; exact E|apply below_refl].
  - pose proof (ensure_below st) as B. destruct (ensure_bootstrap shipped st) as [st' e]. exact B.
  - pose proof (ensure_below st) as B. destruct (ensure_bootstrap shipped st) as [st' e]. exact B.
  - pose proof (ensure_below st) as B. destruct (ensure_bootstrap shipped st) as [st' e]. exact B.
Qed.
Lemma clf_run_below cs : forall st, below (fst st) (fst (clf_run shipped st cs)).
Proof using Type. induction cs as [|c cs IH]; intros st; cbn; [apply below_refl|]. eapply below_trans; [apply clf_step_below|apply IH]. Qed.
(* the flag *)
Definition booted (st : classifiers * bool) : Prop := snd st = true -> forall e, In e shipped -> holds_entry (fst st) e.
Lemma ensure_booted st : booted st -> booted (fst (ensure_bootstrap shipped st)) /\ (snd (ensure_bootstrap shipped st) = None <-> snd (fst (ensure_bootstrap shipped st)) = true).
Proof using Type.
  intros B. unfold ensure_bootstrap. destruct (snd st) eqn:E; [split; [exact B|cbn; now rewrite E]|]. pose proof (register_entries_holds shipped (fst st)) as H. destruct (register_entries shipped (fst st)) as [r [e|]]; cbn in *.
  - split; [discriminate|split; discriminate].
  - split; [intros _; apply H; reflexivity|split; reflexivity].
Qed.
Lemma clf_step_booted st c : booted st -> booted (fst (clf_step shipped st c)).
Proof using Type.
  intros B. assert (M : forall r, below (fst st) r -> booted (r, snd st)) by (intros r Br F e He; eapply holds_below; [exact Br|apply B; assumption]).
  destruct c as [k d p|k n b| |k|k n]; cbn [clf_step].
  - destruct (register_classifier (fst st) k d p) as [r|e] eqn:E; cbn [fst]; [apply M; eapply register_classifier_below; exact E|exact B].
  - destruct (register_backend (fst st) k n b) as [r|e] eqn:E; cbn [fst]; [apply M; eapply register_backend_below; exact E|exact B].
  - destruct (ensure_booted st B) as [X _]. destruct (ensure_bootstrap shipped st) as [st' e]. exact X.
  - destruct (ensure_booted st B) as [X _]. destruct (ensure_bootstrap shipped st) as [st' e]. exact X.
  - destruct (ensure_booted st B) as [X _]. destruct (ensure_bootstrap shipped st) as [st' e]. exact X.
Qed.
Lemma clf_run_booted cs : forall st, booted st -> booted (clf_run shipped st cs).
Proof using Type. induction cs as [|c cs IH]; intros st B; cbn; [exact B|]. apply IH, clf_step_booted, B. Qed.
(* a bootstrap that fails now fails later *)
Definition stuck (st : classifiers * bool) : Prop := snd st = false /\ snd (register_entries shipped (fst st)) <> None.
Lemma stuck_iff st : stuck st <-> snd (ensure_bootstrap shipped st) <> None.
Proof using Type.
  unfold stuck, ensure_bootstrap. destruct (snd st); [split; [intros [H _]; discriminate|intros H; exfalso; now apply H]|]. destruct (register_entries shipped (fst st)) as [r [e|]]; cbn; [split; [discriminate|split; [reflexivity|discriminate]]|split; [intros [_ H]; exact H|intros H; split; [reflexivity|exact H]]].
Qed.
Lemma stuck_step st c : stuck st -> stuck (fst (clf_step shipped st c)).
Proof using Type.
  intros S0. pose proof (clf_step_below st c) as B. destruct S0 as [F N].
  assert (FF : snd (fst (clf_step shipped st c)) = false).
  { destruct c as [k d p|k n b| |k|k n]; cbn [clf_step]; try (unfold ensure_bootstrap; rewrite F; destruct (register_entries shipped (fst st)) as [r [e|]]; cbn in *; [reflexivity|exfalso; now apply N]).
    - destruct (register_classifier (fst st) k d p); exact F.
    - destruct (register_backend (fst st) k n b); exact F. }
  split; [exact FF|]. intros H. apply N. eapply register_entries_mono; [exact B|exact H].
Qed.
Lemma stuck_run cs : forall st, stuck st -> stuck (clf_run shipped st cs).
Proof using Type. induction cs as [|c cs IH]; intros st B; cbn; [exact B|]. apply IH, stuck_step, B. Qed.
End ClfHistories.
(* keys are not repeated *)
Lemma register_classifier_NoDup reg k d p reg' : register_classifier reg k d p = Ok reg' -> NoDup (map fst reg) -> NoDup (map fst reg').
Proof. intros H Hn. apply register_classifier_iff in H as [_ ->]. destruct (dget reg k); [exact Hn|now apply dput_NoDup]. Qed.
Lemma register_backend_NoDup reg k n b reg' : register_backend reg k n b = Ok reg' -> NoDup (map fst reg) -> NoDup (map fst reg').
Proof. intros H Hn. apply register_backend_iff in H as (c & _ & _ & ->). now apply dput_NoDup. Qed.
Lemma register_backends_NoDup bs k : forall reg, NoDup (map fst reg) -> NoDup (map fst (fst (register_backends reg k bs))).
Proof. induction bs as [|[n b] bs IH]; intros reg Hn; cbn; [exact Hn|]. destruct (register_backend reg k n b) as [r|e] eqn:E; [|exact Hn]. apply IH. eapply register_backend_NoDup; [exact E|exact Hn]. Qed.
Lemma register_entries_NoDup es : forall reg, NoDup (map fst reg) -> NoDup (map fst (fst (register_entries es reg))).
Proof.
  induction es as [|e es IH]; intros reg Hn; cbn; [exact Hn|]. destruct (register_classifier reg _ _ _) as [r|x] eqn:E; [|exact Hn]. pose proof (register_backends_NoDup (en_backends e) (en_key e) r (register_classifier_NoDup _ _ _ _ _ E Hn)) as B.
  destruct (register_backends r (en_key e) (en_backends e)) as [r2 [x|]]; [exact B|]. apply IH, B.
Qed.
Lemma clf_step_NoDup shipped (st : classifiers * bool) c : NoDup (map fst (fst st)) -> NoDup (map fst (fst (fst (clf_step shipped st c)))).
Proof.
  intros Hn. assert (B : NoDup (map fst (fst (fst (ensure_bootstrap shipped st))))).
  { unfold ensure_bootstrap. destruct (snd st); [exact Hn|]. pose proof (register_entries_NoDup shipped (fst st) Hn) as B. destruct (register_entries shipped (fst st)) as [r [e|]]; exact B. }
  destruct c as [k d p|k n b| |k|k n]; cbn [clf_step].
  - destruct (register_classifier (fst st) k d p) as [r|e] eqn:E; cbn [fst]; [eapply register_classifier_NoDup; [exact E|exact Hn]|exact Hn].
  - destruct (register_backend (fst st) k n b) as [r|e] eqn:E; cbn [fst]; [eapply register_backend_NoDup; [exact E|exact Hn]|exact Hn].
  - destruct (ensure_bootstrap shipped st); exact B.
  - destruct (ensure_bootstrap shipped st); exact B.
  - destruct (ensure_bootstrap shipped st); exact B.
Qed.
Lemma clf_run_NoDup shipped cs : forall st : classifiers * bool, NoDup (map fst (fst st)) -> NoDup (map fst (fst (clf_run shipped st cs))).
Proof. induction cs as [|c cs IH]; intros st Hn; cbn; [exact Hn|]. apply IH, clf_step_NoDup, Hn. Qed.

(* ---- augmentations *)
Lemma ltb_irrefl a : String.ltb a a = false.
Proof. unfold String.ltb. assert (E : String.compare a a = Eq) by (induction a as [|x a IH]; cbn; [reflexivity|]; now rewrite (proj2 (ascii_compare_eq x x) eq_refl)). now rewrite E. Qed.
Lemma alphabetical_ext : forall l l', alphabetical l -> alphabetical l' -> (forall x, In x l <-> In x l') -> l = l'.
Proof.
  unfold alphabetical. induction l as [|a l IH]; intros [|b l'] H H' E; [reflexivity|exfalso; apply (proj2 (E b)); now left|exfalso; apply (proj1 (E a)); now left|].
  inversion H as [|? ? Hs Hf]; inversion H' as [|? ? Hs' Hf']; subst. rewrite Forall_forall in Hf, Hf'.
  assert (a = b).
  { destruct (proj1 (E a) (or_introl eq_refl)) as [->|Ha]; [reflexivity|]. destruct (proj2 (E b) (or_introl eq_refl)) as [->|Hb]; [reflexivity|].
    specialize (Hf b Hb). specialize (Hf' a Ha). apply ltb_lt in Hf, Hf'. pose proof (string_lt_trans _ _ _ Hf Hf') as X. apply ltb_lt in X. rewrite ltb_irrefl in X. discriminate. }
  subst b. f_equal. apply IH; [assumption|assumption|]. intros x. split; intros Hx.
  - destruct (proj1 (E x) (or_intror Hx)) as [->|]; [|assumption]. specialize (Hf x Hx). rewrite ltb_irrefl in Hf. discriminate.
  - destruct (proj2 (E x) (or_intror Hx)) as [->|]; [|assumption]. specialize (Hf' x Hx). rewrite ltb_irrefl in Hf'. discriminate.
Qed.
Lemma same_class_iff a b : same_class a b = true <-> a = b.
Proof.
  destruct a, b; cbn; try (split; [discriminate|congruence]).
  - rewrite Nat.eqb_eq. split; congruence.
  - rewrite andb_true_iff, String.eqb_eq, Nat.eqb_eq. split; [intros [-> ->]; reflexivity|intros [= -> ->]; auto].
Qed.
Lemma register_op_iff rt id c rt' : register_op rt id c = Ok rt' <->
  (oc_op_id c <> None /\ oc_modality c <> None /\ forall c', dget rt id = Some c' -> oc_class c' = oc_class c) /\ rt' = dput rt id c.
Proof.
  unfold register_op. destruct (match dget rt id with Some c' => _ | None => false end) eqn:E.
  - split; [discriminate|]. intros [(_ & _ & H) _]. destruct (dget rt id) as [c'|]; [|discriminate]. rewrite (proj2 (same_class_iff _ _) (H c' eq_refl)) in E. discriminate.
  - assert (H : forall c', dget rt id = Some c' -> oc_class c' = oc_class c).
    { intros c' Hc. rewrite Hc in E. apply same_class_iff. destruct (same_class (oc_class c') (oc_class c)); [reflexivity|discriminate]. }
    destruct (oc_op_id c) as [o|]; [destruct (oc_modality c) as [m|]|].
    + split; [intros [= <-]; split; [|reflexivity]; split; [discriminate|]; split; [discriminate|exact H]|intros [_ ->]; reflexivity].
    + split; [discriminate|]. intros [(_ & X & _) _]. now exfalso; apply X.
    + split; [discriminate|]. intros [(X & _) _]. now exfalso; apply X.
Qed.
Lemma register_op_err rt id c e : register_op rt id c = Err e -> e = DataAugmentationError.
Proof. unfold register_op. destruct (match dget rt id with Some c' => _ | None => false end); [congruence|]. destruct (oc_op_id c); [destruct (oc_modality c)|]; congruence. Qed.
Definition rt_kept (a b : runtime_ops) : Prop := forall id c, dget a id = Some c -> exists c', dget b id = Some c' /\ oc_class c' = oc_class c.
Lemma rt_kept_refl a : rt_kept a a. Proof. intros id c H. eauto. Qed.
Lemma rt_kept_trans a b c : rt_kept a b -> rt_kept b c -> rt_kept a c.
Proof. intros H1 H2 id x H. destruct (H1 id x H) as (y & E1 & P1). destruct (H2 id y E1) as (z & E2 & P2). exists z. split; [exact E2|congruence]. Qed.
Lemma register_op_kept rt id c rt' : register_op rt id c = Ok rt' -> rt_kept rt rt'.
Proof. intros H. apply register_op_iff in H as [(_ & _ & H) ->]. intros i x Hx. rewrite dput_get. destruct (String.eqb_spec id i) as [->|N]; [|eauto]. exists c. split; [reflexivity|]. symmetry. exact (H x Hx). Qed.
Lemma execute_kept ds k : forall rt, rt_kept rt (fst (execute ds k rt)).
Proof. induction ds as [|d ds IH]; intros rt; cbn; [apply rt_kept_refl|]. destruct (register_op rt _ _) as [r|e] eqn:E; [|apply rt_kept_refl]. eapply rt_kept_trans; [eapply register_op_kept; exact E|apply IH]. Qed.
Lemma execute_ok ds k : forall rt, snd (execute ds k rt) = None -> forall d, In d ds -> exists c, dget (fst (execute ds k rt)) (de_id d) = Some c /\ oc_class c = Shipped (de_class d) k.
Proof.
  induction ds as [|d ds IH]; intros rt; cbn [execute]; [intros _ d []|]. destruct (register_op rt (de_id d) (made d k)) as [r|e] eqn:E; [|discriminate]. intros H d' [<-|Hin]; [|now apply IH].
  apply register_op_iff in E as [_ ->]. assert (X : dget (dput rt (de_id d) (made d k)) (de_id d) = Some (made d k)) by now rewrite dput_get, String.eqb_refl.
  destruct (execute_kept ds k _ _ _ X) as (c & E & P). exists c. split; [exact E|exact P].
Qed.
Lemma execute_fresh ds k : forall rt, NoDup (map de_id ds) -> (forall d, In d ds -> dget rt (de_id d) = None) ->
  exists rt', execute ds k rt = (rt', None) /\ forall id, dget rt' id = match find (fun d => String.eqb (de_id d) id) ds with Some d => Some (made d k) | None => dget rt id end.
Proof.
  induction ds as [|d ds IH]; intros rt Hn Hf; cbn [execute]; [exists rt; split; reflexivity|]. cbn in Hn. inversion Hn as [|? ? N1 N2]; subst.
  assert (E : register_op rt (de_id d) (made d k) = Ok (dput rt (de_id d) (made d k))).
  { apply register_op_iff. split; [|reflexivity]. split; [discriminate|]. split; [discriminate|]. intros c' Hc. rewrite (Hf d (or_introl eq_refl)) in Hc. discriminate. }
  rewrite E. destruct (IH (dput rt (de_id d) (made d k)) N2) as (rt' & E' & G).
  { intros d' Hd. rewrite dput_get. destruct (String.eqb_spec (de_id d) (de_id d')) as [EQ|N]; [exfalso; apply N1; rewrite EQ; now apply in_map|]. apply Hf. now right. }
  exists rt'. split; [exact E'|]. intros id. rewrite G. cbn [find]. destruct (String.eqb_spec (de_id d) id) as [<-|N].
  - destruct (find _ ds) as [d'|] eqn:F; [|now rewrite dput_get, String.eqb_refl]. apply find_some in F as [Hd Hi]. apply String.eqb_eq in Hi. exfalso. apply N1. rewrite <- Hi. now apply in_map.
  - destruct (find _ ds); [reflexivity|]. rewrite dput_get. destruct (String.eqb_spec (de_id d) id); [contradiction|reflexivity].
Qed.
Lemma execute_NoDup ds k : forall rt, NoDup (map fst rt) -> NoDup (map fst (fst (execute ds k rt))).
Proof. induction ds as [|d ds IH]; intros rt Hn; cbn; [exact Hn|]. destruct (register_op rt _ _) as [r|e] eqn:E; [|exact Hn]. apply IH. apply register_op_iff in E as [_ ->]. now apply dput_NoDup. Qed.
Section OpHistories.
Variable catalogue : list (string * (string * string * string)).
Variable modules : list (string * list decorated).
Lemma import_kept st m : rt_kept (os_rt st) (os_rt (fst (import_ops modules st m))).
Proof using Type.
  unfold import_ops. destruct (dget (os_loaded st) m); [apply rt_kept_refl|]. destruct (dget modules m) as [ds|]; [|apply rt_kept_refl]. cbv zeta.
  pose proof (execute_kept ds (os_count st) (os_rt st)) as K. destruct (execute ds (os_count st) (os_rt st)) as [rt e]. exact K.
Qed.
Lemma get_cls_kept st id : rt_kept (os_rt st) (os_rt (fst (get_cls catalogue modules st id))).
Proof using Type.
  unfold get_cls. destruct (dget (os_rt st) id); [apply rt_kept_refl|]. destruct (dget catalogue id) as [[[m c] mo]|]; [|apply rt_kept_refl].
  pose proof (import_kept st m) as K. destruct (import_ops modules st m) as [st' e]. exact K.
Qed.
Lemma op_step_kept st c : rt_kept (os_rt st) (os_rt (fst (op_step catalogue modules st c))).
Proof using Type.
  destruct c as [id c|id|m]; cbn [op_step].
  - destruct (register_op (os_rt st) id c) as [r|e] eqn:E; cbn [fst os_rt]; [eapply register_op_kept; exact E|apply rt_kept_refl].
  - pose proof (get_cls_kept st id) as K. destruct (get_cls catalogue modules st id) as [st' r]. exact K.
  - apply rt_kept_refl.
Qed.
Lemma op_run_kept cs : forall st, rt_kept (os_rt st) (os_rt (op_run catalogue modules st cs)).
Proof using Type. induction cs as [|c cs IH]; intros st; cbn; [apply rt_kept_refl|]. eapply rt_kept_trans; [apply op_step_kept|apply IH]. Qed.
(* a module that is loaded has registered its classes *)
Definition loaded_ok (st : op_state) : Prop := forall m k ds d, dget (os_loaded st) m = Some k -> dget modules m = Some ds -> In d ds ->
  exists c, dget (os_rt st) (de_id d) = Some c /\ oc_class c = Shipped (de_class d) k.
Lemma import_loaded st m : loaded_ok st -> loaded_ok (fst (import_ops modules st m)).
Proof using Type.
  intros L. pose proof (import_kept st m) as K. unfold import_ops in *. destruct (dget (os_loaded st) m) eqn:El; [exact L|]. destruct (dget modules m) as [ds|] eqn:Em; [|exact L]. cbv zeta in *.
  pose proof (execute_ok ds (os_count st) (os_rt st)) as X. destruct (execute ds (os_count st) (os_rt st)) as [rt e]. cbn [fst snd os_rt] in *.
  intros m' k' ds' d Hl Hm Hd. cbn [os_rt os_loaded] in *. assert (OLD : dget (os_loaded st) m' = Some k' -> exists c, dget rt (de_id d) = Some c /\ oc_class c = Shipped (de_class d) k').
  { intros H. destruct (L m' k' ds' d H Hm Hd) as (c & E & P). destruct (K _ _ E) as (c' & E' & P'). exists c'. split; [exact E'|congruence]. }
  destruct e as [e|]; [auto|]. rewrite dput_get in Hl. destruct (String.eqb_spec m m') as [<-|N]; [|auto]. injection Hl as <-. rewrite Em in Hm. injection Hm as <-. exact (X eq_refl d Hd).
Qed.
Lemma op_step_loaded st c : loaded_ok st -> loaded_ok (fst (op_step catalogue modules st c)).
Proof using Type.
  intros L. destruct c as [id c|id|m]; cbn [op_step]; [| |exact L].
  - destruct (register_op (os_rt st) id c) as [r|e] eqn:E; cbn [fst]; [|exact L]. intros m k ds d Hl Hm Hd. cbn in Hl. destruct (L m k ds d Hl Hm Hd) as (x & Ex & P). destruct (register_op_kept _ _ _ _ E _ _ Ex) as (y & Ey & Q). exists y. split; [exact Ey|congruence].
  - unfold get_cls. destruct (dget (os_rt st) id); [exact L|]. destruct (dget catalogue id) as [[[m c] mo]|]; [|exact L]. pose proof (import_loaded st m L) as K. destruct (import_ops modules st m) as [st' e]. exact K.
Qed.
Lemma op_run_loaded cs : forall st, loaded_ok st -> loaded_ok (op_run catalogue modules st cs).
Proof using Type. induction cs as [|c cs IH]; intros st L; cbn; [exact L|]. apply IH, op_step_loaded, L. Qed.
Lemma op_step_NoDup st c : NoDup (map fst (os_rt st)) -> NoDup (map fst (os_rt (fst (op_step catalogue modules st c)))).
Proof using Type.
  intros Hn. destruct c as [id c|id|m]; cbn [op_step]; [| |exact Hn].
  - destruct (register_op (os_rt st) id c) as [r|e] eqn:E; cbn [fst os_rt]; [|exact Hn]. apply register_op_iff in E as [_ ->]. now apply dput_NoDup.
  - unfold get_cls, import_ops. destruct (dget (os_rt st) id); [exact Hn|]. destruct (dget catalogue id) as [[[m c] mo]|]; [|exact Hn]. destruct (dget (os_loaded st) m); [exact Hn|]. destruct (dget modules m) as [ds|]; [|exact Hn]. cbv zeta.
    pose proof (execute_NoDup ds (os_count st) (os_rt st) Hn) as X. destruct (execute ds (os_count st) (os_rt st)) as [rt e]. exact X.
Qed.
Lemma op_run_NoDup cs : forall st, NoDup (map fst (os_rt st)) -> NoDup (map fst (os_rt (op_run catalogue modules st cs))).
Proof using Type. induction cs as [|c cs IH]; intros st Hn; cbn; [exact Hn|]. apply IH, op_step_NoDup, Hn. Qed.
(* the class a look-up returns is in the registry afterwards *)
Lemma get_cls_registered st id c : well_made catalogue modules -> loaded_ok st -> snd (get_cls catalogue modules st id) = Ok c ->
  exists c', dget (os_rt (fst (get_cls catalogue modules st id))) id = Some c' /\ oc_class c' = oc_class c.
Proof using Type.
  intros (WN & WC & WM) L. unfold get_cls. destruct (dget (os_rt st) id) as [x|] eqn:E; [intros [= <-]; eauto|]. destruct (dget catalogue id) as [[[m cn] mo]|] eqn:Ec; [|discriminate].
  pose proof (import_loaded st m L) as L'. destruct (import_ops modules st m) as [st' e]. cbn [fst snd] in *. destruct e; [discriminate|]. unfold attribute.
  destruct (dget (os_loaded st') m) as [k|] eqn:El; [|discriminate]. destruct (dget modules m) as [ds|] eqn:Em; [|discriminate]. destruct (find _ ds) as [d|] eqn:F; [|discriminate]. intros [= <-].
  apply find_some in F as [Hd Hc]. apply String.eqb_eq in Hc. destruct (WM m ds Em) as (D1 & D2 & D3).
  destruct (WC id m cn mo) as (ds' & Em' & Hin). { apply dget_NoDup_In; assumption. } rewrite Em in Em'. injection Em' as <-.
  assert (d = {| de_id := id; de_class := cn; de_op_id := id; de_modality := mo |}).
  { clear -D2 Hd Hin Hc. induction ds as [|y ds IH]; [destruct Hd|]. cbn in D2. inversion D2 as [|? ? N1 N2]; subst. destruct Hd as [->|Hd], Hin as [E|Hin]; [exact E| | |now apply IH].
    - exfalso. apply N1. change (de_class d) with (de_class {| de_id := id; de_class := de_class d; de_op_id := id; de_modality := mo |}). now apply in_map.
    - exfalso. apply N1. subst y. cbn. now apply in_map. }
  subst d. destruct (L' m k ds _ El Em Hd) as (c & E1 & P). exists c. split; [exact E1|exact P].
Qed.
Lemma all_ids_spec rt : NoDup (map fst catalogue) -> NoDup (map fst rt) -> alphabetical (all_ids catalogue rt) /\ forall id, In id (all_ids catalogue rt) <-> In id (map fst catalogue) \/ In id (map fst rt).
Proof using Type.
  intros Hc Hr. unfold all_ids. set (f := fun k => _).
  assert (I : forall id, In id (map fst catalogue ++ filter f (map fst rt)) <-> In id (map fst catalogue) \/ In id (map fst rt)).
  { intros id. rewrite in_app_iff, filter_In. unfold f. pose proof (dget_In catalogue id) as D. destruct (dget catalogue id) eqn:E; split.
    - intros [H|[H _]]; auto.
    - intros _. left. apply D. eauto.
    - intros [H|[H _]]; auto.
    - intros [H|H]; [now left|right; now split]. }
  split; [|intros id; rewrite sortS_In; apply I]. apply sortS_sorted.
  assert (DJ : forall x, In x (map fst catalogue) -> ~ In x (filter f (map fst rt))).
  { intros x Hx Hf. apply filter_In in Hf as [_ Hf]. unfold f in Hf. apply dget_In in Hx as (v & Ev). rewrite Ev in Hf. discriminate. }
  revert DJ. generalize (filter f (map fst rt)) (NoDup_filter f Hr). intros l Hl. clear I f. revert Hc. generalize (map fst catalogue). induction l0 as [|x ks IH]; intros Hc DJ; [exact Hl|]. inversion Hc as [|? ? N1 N2]; subst. cbn. constructor; [|apply IH; [exact N2|]; intros y Hy; apply DJ; now right].
  rewrite in_app_iff. intros [H|H]; [contradiction|]. apply (DJ x (or_introl eq_refl) H).
Qed.
(* states of a user who keeps away from the catalogue *)
Definition clean (st : op_state) : Prop := forall id m c mo, In (id, (m, c, mo)) catalogue ->
  dget (os_rt st) id = match dget (os_loaded st) m with Some k => Some {| oc_class := Shipped c k; oc_op_id := Some id; oc_modality := Some mo |} | None => None end.
Lemma find_id ds id d : NoDup (map de_id ds) -> In d ds -> de_id d = id -> find (fun d => String.eqb (de_id d) id) ds = Some d.
Proof using Type.
  induction ds as [|y ds IH]; intros Hn Hd E; [destruct Hd|]; destruct Hd as [->|Hin]; cbn in *; inversion Hn as [|? ? N1 N2]; subst.
  - now rewrite String.eqb_refl.
  - destruct (String.eqb_spec (de_id y) (de_id d)) as [EQ|N]; [exfalso; apply N1; rewrite EQ; now apply in_map|]. now apply IH.
Qed.
Lemma find_class ds d : NoDup (map de_class ds) -> In d ds -> find (fun x => String.eqb (de_class x) (de_class d)) ds = Some d.
Proof using Type.
  induction ds as [|y ds IH]; intros Hn Hd; [destruct Hd|]; destruct Hd as [->|Hin]; cbn in *; inversion Hn as [|? ? N1 N2]; subst.
  - now rewrite String.eqb_refl.
  - destruct (String.eqb_spec (de_class y) (de_class d)) as [EQ|N]; [exfalso; apply N1; rewrite EQ; now apply in_map|]. now apply IH.
Qed.
Lemma import_clean st m id c mo : well_made catalogue modules -> clean st -> In (id, (m, c, mo)) catalogue ->
  clean (fst (import_ops modules st m)) /\ snd (import_ops modules st m) = None /\ (exists k, dget (os_loaded (fst (import_ops modules st m))) m = Some k) /\
  forall i, ~ In i (map fst catalogue) -> dget (os_rt (fst (import_ops modules st m))) i = dget (os_rt st) i.
Proof using Type.
  intros (WN & WC & WM) CL Hin. unfold import_ops. destruct (dget (os_loaded st) m) as [k|] eqn:El; [split; [exact CL|]; split; [reflexivity|]; split; [eexists; exact El|reflexivity]|].
  destruct (WC id m c mo Hin) as (ds & Em & Hd). rewrite Em. cbv zeta. destruct (WM m ds Em) as (D1 & D2 & D3).
  destruct (execute_fresh ds (os_count st) (os_rt st) D1) as (rt' & E & G).
  { intros d Hdd. pose proof (CL _ _ _ _ (D3 d Hdd)) as X. rewrite El in X. exact X. }
  rewrite E. cbn [fst snd os_rt os_loaded]. split; [|split; [reflexivity|split; [rewrite dput_get, String.eqb_refl; eauto|]]].
  - intros i m' c' mo' Hi. cbn [os_rt os_loaded]. rewrite G, dput_get. destruct (String.eqb_spec m m') as [<-|N].
    + destruct (WC i m c' mo' Hi) as (ds' & Em' & Hd'). rewrite Em in Em'. injection Em' as <-. rewrite (find_id ds i _ D1 Hd' eq_refl). reflexivity.
    + destruct (find (fun d => String.eqb (de_id d) i) ds) as [d|] eqn:F; [|exact (CL i m' c' mo' Hi)]. apply find_some in F as [Hdd Hdi]. apply String.eqb_eq in Hdi. pose proof (D3 d Hdd) as X. rewrite Hdi in X.
      apply (dget_NoDup_In catalogue i _ WN) in X. apply (dget_NoDup_In catalogue i _ WN) in Hi. rewrite X in Hi. injection Hi as EQ _ _. contradiction.
  - intros i Hi. rewrite G. destruct (find (fun d => String.eqb (de_id d) i) ds) as [d|] eqn:F; [|reflexivity]. apply find_some in F as [Hdd Hdi]. apply String.eqb_eq in Hdi. exfalso. apply Hi. apply in_map_iff. exists (i, (m, de_class d, de_modality d)). split; [reflexivity|]. rewrite <- Hdi. now apply D3.
Qed.
Lemma get_cls_clean st id : well_made catalogue modules -> clean st ->
  clean (fst (get_cls catalogue modules st id)) /\ (forall i, ~ In i (map fst catalogue) -> dget (os_rt (fst (get_cls catalogue modules st id))) i = dget (os_rt st) i) /\
  forall m c mo, In (id, (m, c, mo)) catalogue -> exists k, snd (get_cls catalogue modules st id) = Ok {| oc_class := Shipped c k; oc_op_id := Some id; oc_modality := Some mo |}.
Proof using Type.
  intros W CL. pose proof W as (WN & WC & WM). unfold get_cls. destruct (dget (os_rt st) id) as [x|] eqn:E.
  - split; [exact CL|]. split; [reflexivity|]. intros m c mo Hin. pose proof (CL _ _ _ _ Hin) as X. rewrite E in X. destruct (dget (os_loaded st) m) as [k|]; [|discriminate]. injection X as ->. now exists k.
  - destruct (dget catalogue id) as [[[m c] mo]|] eqn:Ec.
    + apply (dget_NoDup_In _ _ _ WN) in Ec. destruct (import_clean st m id c mo W CL Ec) as (A & B & (k & Hk) & D). destruct (import_ops modules st m) as [st' e]. cbn [fst snd] in *. subst e. split; [exact A|]. split; [exact D|].
      intros m' c' mo' Hin. apply (dget_NoDup_In _ _ _ WN) in Hin. pose proof (proj1 (dget_NoDup_In _ _ _ WN) Ec) as Ec'. rewrite Ec' in Hin. injection Hin as <- <- <-. exists k. unfold attribute. rewrite Hk.
      destruct (WC id m c mo Ec) as (ds & Em & Hd). rewrite Em. destruct (WM m ds Em) as (D1 & D2 & D3). pose proof (find_class ds _ D2 Hd) as F. cbn [de_class] in F. rewrite F. reflexivity.
    + split; [exact CL|]. split; [reflexivity|]. intros m c mo Hin. apply (dget_NoDup_In _ _ _ WN) in Hin. congruence.
Qed.
Lemma op_step_clean st c : well_made catalogue modules -> clean st -> (forall id x, c = AddOp id x -> ~ In id (map fst catalogue)) -> clean (fst (op_step catalogue modules st c)).
Proof using Type.
  intros W CL K. destruct c as [id x|id|m]; cbn [op_step]; [| |exact CL].
  - destruct (register_op (os_rt st) id x) as [r|e] eqn:E; cbn [fst]; [|exact CL]. apply register_op_iff in E as [_ ->]. intros i m c mo Hi. cbn [os_rt os_loaded]. rewrite dput_get. destruct (String.eqb_spec id i) as [->|N]; [|now apply CL].
    exfalso. apply (K i x eq_refl), in_map_iff. now exists (i, (m, c, mo)).
  - destruct (get_cls_clean st id W CL) as (A & _). destruct (get_cls catalogue modules st id) as [st' r]. exact A.
Qed.
Lemma op_run_clean cs : forall st, well_made catalogue modules -> clean st -> keeps_away catalogue cs -> clean (op_run catalogue modules st cs).
Proof using Type.
  induction cs as [|c cs IH]; intros st W CL K; cbn; [exact CL|]. apply IH; [exact W| |intros id x H; apply (K id x); now right]. apply op_step_clean; [exact W|exact CL|]. intros id x ->. apply (K id x). now left.
Qed.
(* with and without the look-ups *)
Definition alike (a b : op_state) : Prop := forall i, ~ In i (map fst catalogue) -> dget (os_rt a) i = dget (os_rt b) i.
Lemma runs_alike cs : forall a b, well_made catalogue modules -> clean a -> clean b -> alike a b -> keeps_away catalogue cs ->
  alike (op_run catalogue modules a cs) (op_run catalogue modules b (filter (fun c => negb (is_get c)) cs)).
Proof using Type.
  induction cs as [|c cs IH]; intros a b W Ca Cb AB K; [exact AB|].
  assert (K' : keeps_away catalogue cs) by (intros id x H; apply (K id x); now right).
  assert (KC : forall id x, c = AddOp id x -> ~ In id (map fst catalogue)) by (intros id x ->; apply (K id x); now left).
  destruct c as [id x|id|m]; cbn [filter is_get negb op_run fold_left].
  - apply (IH _ _ W (op_step_clean a _ W Ca KC) (op_step_clean b _ W Cb KC)); [|exact K']. cbn [op_step].
    assert (G : register_op (os_rt b) id x = match register_op (os_rt a) id x with Ok _ => Ok (dput (os_rt b) id x) | Err e => Err e end).
    { unfold register_op. rewrite (AB id (KC id x eq_refl)). destruct (match dget (os_rt b) id with Some c' => _ | None => false end); [reflexivity|]. destruct (oc_op_id x); [destruct (oc_modality x)|]; reflexivity. }
    rewrite G. destruct (register_op (os_rt a) id x) as [r|e] eqn:E; cbn [fst]; [|exact AB]. apply register_op_iff in E as [_ ->]. intros i Hi. cbn [os_rt]. rewrite !dput_get. destruct (String.eqb id i); [reflexivity|now apply AB].
  - apply (IH (fst (op_step catalogue modules a (GetOp id))) b W (op_step_clean a _ W Ca KC) Cb); [|exact K']. cbn [op_step]. destruct (get_cls_clean a id W Ca) as (_ & A & _). destruct (get_cls catalogue modules a id) as [st' r]. cbn [fst] in *. intros i Hi. rewrite A by exact Hi. now apply AB.
  - now apply (IH a b).
Qed.
Lemma alike_available a b m : well_made catalogue modules -> clean a -> clean b -> alike a b -> NoDup (map fst (os_rt a)) -> NoDup (map fst (os_rt b)) ->
  available_ops catalogue (os_rt a) m = available_ops catalogue (os_rt b) m.
Proof using Type.
  intros (WN & WC & WM) Ca Cb AB Na Nb.
  destruct (all_ids_spec (os_rt a) WN Na) as [Sa Ia]. destruct (all_ids_spec (os_rt b) WN Nb) as [Sb Ib].
  assert (EQ : all_ids catalogue (os_rt a) = all_ids catalogue (os_rt b)).
  { apply alphabetical_ext; [exact Sa|exact Sb|]. intros x. rewrite Ia, Ib. destruct (in_dec string_dec x (map fst catalogue)) as [H|H]; [intuition|]. rewrite !dget_In, (AB x H). reflexivity. }
  unfold available_ops. destruct m as [m|]; [|exact EQ]. rewrite <- EQ. apply filter_ext. intros i. cbv zeta.
  destruct (dget catalogue i) as [[[m' c] mo]|] eqn:E.
  - apply (dget_NoDup_In _ _ _ WN) in E. rewrite (Ca _ _ _ _ E), (Cb _ _ _ _ E). destruct (dget (os_loaded a) m'), (dget (os_loaded b) m'); reflexivity.
  - rewrite AB; [reflexivity|]. rewrite dget_In. intros (v & Hv). congruence.
Qed.
End OpHistories.

(* ---- URIs *)
Lemma colons_app a b : colons (a ++ b)%string = (colons a + colons b)%nat.
Proof. induction a as [|x a IH]; cbn; [reflexivity|]. rewrite IH. lia. Qed.
Section Uris.
Variable space : ascii -> bool.
Lemma lstrip_app l t : (forall a, In a l -> space a = true) -> lstrip space (l ++ t) = lstrip space t.
Proof using Type. induction l as [|a l IH]; intros H; cbn; [reflexivity|]. rewrite (H a (or_introl eq_refl)). apply IH. intros b Hb. apply H. now right. Qed.
Lemma lstrip_spec s : exists l, s = l ++ lstrip space s /\ (forall a, In a l -> space a = true) /\ (forall a u, lstrip space s = a :: u -> space a = false).
Proof using Type.
  induction s as [|a s (l & E & H1 & H2)]; [exists []; split; [reflexivity|]; split; [intros a []|discriminate]|]. cbn. destruct (space a) eqn:Ea.
  - exists (a :: l). split; [cbn; now rewrite <- E|]. split; [intros b [<-|Hb]; auto|exact H2].
  - exists []. split; [reflexivity|]. split; [intros b []|]. intros b u [= <- _]. exact Ea.
Qed.
Lemma app_list a b : list_ascii_of_string (a ++ b)%string = list_ascii_of_string a ++ list_ascii_of_string b.
Proof using Type. induction a as [|x a IH]; cbn; [reflexivity|]. now rewrite IH. Qed.
Lemma app_string a b : string_of_list_ascii (a ++ b) = (string_of_list_ascii a ++ string_of_list_ascii b)%string.
Proof using Type. induction a as [|x a IH]; cbn; [reflexivity|]. now rewrite IH. Qed.
Lemma stripped_strip s t : stripped space s t <-> t = strip space s.
Proof using Type.
  split.
  - intros (l & r & E & Hs & H1 & H2). unfold strip. subst s. rewrite !app_list, !list_ascii_of_string_of_list_ascii.
    destruct t as [|a t].
    + cbn [list_ascii_of_string app]. rewrite <- (app_nil_r (l ++ r)), lstrip_app by (intros a Ha; apply in_app_iff in Ha as [?|?]; apply Hs; auto). reflexivity.
    + rewrite lstrip_app by (intros x Hx; apply Hs; now left). cbn [list_ascii_of_string app lstrip]. rewrite (H1 a t eq_refl).
      change (a :: list_ascii_of_string t ++ r) with ((a :: list_ascii_of_string t) ++ r). rewrite rev_app_distr, lstrip_app by (intros x Hx; apply in_rev in Hx; apply Hs; now right).
      destruct (rev (a :: list_ascii_of_string t)) as [|b u] eqn:ER.
      * apply (f_equal (@List.length ascii)) in ER. rewrite rev_length in ER. discriminate.
      * cbn [lstrip]. assert (ET : String a t = (string_of_list_ascii (rev u) ++ String b "")%string).
        { rewrite <- (string_of_list_ascii_of_string (String a t)). cbn [list_ascii_of_string]. rewrite <- (rev_involutive (a :: list_ascii_of_string t)), ER. cbn [rev]. now rewrite app_string. }
        rewrite (H2 b _ ET). rewrite <- ER, rev_involutive. symmetry. apply (string_of_list_ascii_of_string (String a t)).
  - intros ->. unfold strip. destruct (lstrip_spec (list_ascii_of_string s)) as (l & E & Hl & H1). set (x := lstrip space (list_ascii_of_string s)) in *.
    destruct (lstrip_spec (rev x)) as (r & E' & Hr & H2). set (y := lstrip space (rev x)) in *.
    exists l, (rev r). split; [|split; [|split]].
    + rewrite <- !app_string, <- rev_app_distr, <- E', rev_involutive, <- E. symmetry. apply string_of_list_ascii_of_string.
    + intros a [Ha|Ha]; [now apply Hl|]. apply Hr. now apply in_rev.
    + intros a u Hu. apply (f_equal list_ascii_of_string) in Hu. rewrite list_ascii_of_string_of_list_ascii in Hu. cbn in Hu. apply (H1 a (list_ascii_of_string u ++ rev r)).
      rewrite <- (rev_involutive x), E', rev_app_distr, Hu. reflexivity.
    + intros a u Hu. apply (f_equal list_ascii_of_string) in Hu. rewrite app_list, list_ascii_of_string_of_list_ascii in Hu. cbn in Hu. apply (H2 a (rev (list_ascii_of_string u))).
      rewrite <- (rev_involutive y), Hu, rev_app_distr. reflexivity.
Qed.
Lemma split_first_spec s : has_colon s = true -> s = (fst (split_first s) ++ ":" ++ snd (split_first s))%string /\ colons (fst (split_first s)) = O.
Proof using Type.
  induction s as [|a s IH]; cbn [has_colon split_first]; [discriminate|]. destruct (Ascii.eqb_spec a ":") as [->|N]; [cbn; auto|]. cbn [orb]. intros H. destruct (IH H) as [E C]. destruct (split_first s) as [p q]. cbn [fst snd] in *. rewrite E at 1. split; [reflexivity|].
  cbn. destruct (Ascii.eqb_spec a ":"); [contradiction|exact C].
Qed.
Lemma split_first_app p q : colons p = O -> split_first (p ++ ":" ++ q)%string = (p, q) /\ has_colon (p ++ ":" ++ q)%string = true.
Proof using Type.
  induction p as [|a p IH]; intros H; cbn in *; [auto|]. destruct (Ascii.eqb a ":"); [cbn in H; discriminate|]. destruct (IH H) as [E1 E2]. rewrite E1, E2. auto.
Qed.
Lemma stripped_colons s t : stripped space s t -> (colons t <= colons s)%nat.
Proof using Type. intros (l & r & -> & _). rewrite !colons_app. lia. Qed.
Lemma stripped_again s t : stripped space s t -> stripped space t t.
Proof using Type. intros (l & r & _ & _ & H1 & H2). exists [], []. cbn. split; [|split; [intros a [[]|[]]|split; assumption]]. induction t as [|a t IH]; cbn; [reflexivity|]. f_equal. clear. induction t; cbn; congruence. Qed.
End Uris.
