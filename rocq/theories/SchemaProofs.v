(* Proofs about reading configurations (C151, C152). *)
From Coq Require Import String Ascii ZifyBool ZifyNat.
From Verif Require Import Prelude FloatModel PyValue HpoModel HpoSpec HpoProofs LimitsModel BenchIoModel BenchIoSpec BenchIoProofs BenchRunModel BenchRunProofs SchemaModel SchemaSpec.
Local Open Scope string_scope.
Local Open Scope Z_scope.
Local Open Scope list_scope.

Lemma bind_iff {A B} (r : result A) (f : A -> result B) b : bind r f = Ok b <-> exists a, r = Ok a /\ f a = Ok b.
Proof. destruct r; cbn; split; [intros; eauto|intros (? & [= <-] & ?); assumption|discriminate|intros (? & ? & _); discriminate]. Qed.
Lemma bind_unit_iff {B} (r : result unit) (f : unit -> result B) b : bind r f = Ok b <-> r = Ok tt /\ f tt = Ok b.
Proof. rewrite bind_iff. split; [intros ([] & ? & ?); auto|intros []; eauto]. Qed.
Lemma memS_In k l : memS k l = true <-> In k l.
Proof. apply memS_mem. Qed.
Lemma check_iff (b : bool) : (if b then Ok tt else Err BenchError) = Ok tt <-> b = true.
Proof. destruct b; split; congruence. Qed.
Lemma refuse_iff (b : bool) : refuse b = Ok tt <-> b = false.
Proof. destruct b; cbn; split; congruence. Qed.

Lemma check_unknown_ok d ks : check_unknown d ks = Ok tt <-> only d ks.
Proof. unfold check_unknown, only. rewrite check_iff, forallb_forall. setoid_rewrite memS_In. reflexivity. Qed.
Lemma is_blank_iff s : is_blank s = false <-> written s.
Proof.
  unfold is_blank, written. destruct (strip_spec (list_ascii_of_string s)) as (a & b & E & Fa & Fb).
  destruct (strip (list_ascii_of_string s)) as [|c r] eqn:H.
  - split; [discriminate|]. intros (c & Hc & Nb). exfalso. apply Nb. rewrite E in Hc. cbn in Hc. rewrite in_app_iff in Hc. rewrite Forall_forall in Fa, Fb. destruct Hc; auto.
  - split; [intros _|reflexivity]. unfold strip in H.
    assert (Hl : lstrip (list_ascii_of_string s) <> []) by (intros X; rewrite X in H; discriminate H).
    destruct (lstrip (list_ascii_of_string s)) as [|x l] eqn:Hx; [congruence|].
    assert (Nx : is_space x = false).
    { clear - Hx. induction (list_ascii_of_string s) as [|y t IH]; cbn in Hx; [discriminate|]. destruct (is_space y) eqn:Ey; [auto|]. injection Hx as <- _. exact Ey. }
    exists x. split.
    + destruct (lstrip_spec (list_ascii_of_string s)) as (p & Ep & _). rewrite Ep, in_app_iff. right. rewrite Hx. left. reflexivity.
    + rewrite <- is_space_blank. congruence.
Qed.
Lemma get_cases d k dflt : (exists v, lookup d k = Some v /\ get_or d k dflt = v) \/ (lookup d k = None /\ get_or d k dflt = dflt).
Proof. unfold get_or. destruct (lookup d k) as [v|]; [left; eauto|right; auto]. Qed.

Lemma require_str_ok d k s : require_str d k = Ok s <-> text_at d k s.
Proof.
  unfold require_str, text_at. rewrite <- is_blank_iff. destruct (get_cases d k PNone) as [(v & E & ->)|[E ->]]; rewrite E; [|split; [discriminate|intros [? _]; discriminate]].
  destruct v; try (split; [discriminate|intros [? _]; discriminate]). destruct (is_blank s0) eqn:Hb; split.
  - discriminate.
  - intros [[= <-] X]. congruence.
  - intros [= <-]. auto.
  - intros [[= <-] X]. reflexivity.
Qed.
Lemma require_bool_ok d k b : require_bool d k = Ok b <-> lookup d k = Some (PBool b).
Proof. unfold require_bool. destruct (get_cases d k PNone) as [(v & E & ->)|[E ->]]; rewrite E; [destruct v; split; congruence|split; discriminate]. Qed.
Lemma absent_cases d k : absent d k <-> get_or d k PNone = PNone.
Proof. unfold absent, get_or. destruct (lookup d k); split; try tauto; [intros [X|X]; congruence|intros ->; auto]. Qed.
Lemma optional_str_ok d k x : optional_str d k = Ok x <-> text_or_none d k x.
Proof.
  unfold optional_str, text_or_none, text_at. destruct x as [s|]; [rewrite <- is_blank_iff|rewrite absent_cases]; (destruct (get_cases d k PNone) as [(v & E & ->)|[E ->]]; rewrite ?E).
  - destruct v; try (split; [discriminate|intros [? _]; discriminate]). destruct (is_blank s0) eqn:Hb; split.
    + discriminate.
    + intros [[= <-] X]. congruence.
    + intros [= <-]. auto.
    + intros [[= <-] X]. reflexivity.
  - split; [discriminate|intros [? _]; discriminate].
  - destruct v; try (split; congruence). destruct (is_blank s); split; congruence.
  - split; congruence.
Qed.
Lemma int_of_ok v z : int_of v = Some z <-> whole v z.
Proof.
  unfold whole. destruct v; cbn; try (split; [discriminate|intros [?|[[? _]|[? _]]]; discriminate]).
  - destruct b; (split; [intros [= <-]; auto|intros [?|[[? ?]|[? ?]]]; congruence]).
  - split; [intros [= <-]; auto|intros [[= <-]|[[? _]|[? _]]]; [reflexivity|discriminate|discriminate]].
Qed.
Lemma optional_int_ok d k x : optional_int d k = Ok x <-> whole_or_none d k x.
Proof.
  unfold optional_int, whole_or_none. destruct x as [z|]; [setoid_rewrite <- int_of_ok|rewrite absent_cases]; (destruct (get_cases d k PNone) as [(v & E & ->)|[E ->]]; rewrite ?E).
  - destruct v; cbn [int_of]; (split; [intros H; try discriminate H; injection H as H; subst; eauto|intros (? & [= <-] & H); cbn in H; congruence]).
  - split; [discriminate|intros (? & ? & _); discriminate].
  - destruct v; cbn; split; congruence.
  - split; congruence.
Qed.
Lemma optional_positive_ok d k x : optional_positive_int d k = Ok x <-> positive_or_none d k x.
Proof.
  unfold optional_positive_int, positive_or_none. rewrite bind_iff. split.
  - intros (y & E & H). apply optional_int_ok in E. destruct y as [z|].
    + destruct (z <=? 0) eqn:Hz; [discriminate|]. injection H as <-. split; [exact E|]. intros ? [= <-]. lia.
    + injection H as <-. split; [exact E|discriminate].
  - intros [H P]. exists x. split; [apply optional_int_ok, H|]. destruct x as [z|]; [|reflexivity]. specialize (P z eq_refl). destruct (z <=? 0) eqn:Hz; [lia|reflexivity].
Qed.
Lemma optional_bool_ok d k dflt b : optional_bool d k dflt = Ok b <-> flag d k dflt b.
Proof.
  unfold optional_bool, flag. destruct (get_cases d k (PBool dflt)) as [(v & E & ->)|[E ->]]; rewrite E.
  - destruct v; (split; [intros H; try discriminate H; injection H as <-; auto|intros [H|[H _]]; congruence]).
  - split; [intros [= <-]; auto|intros [H|[_ ->]]; [discriminate H|reflexivity]].
Qed.
Lemma optional_mapping_ok d k m : optional_mapping d k = Ok m <-> mapping_at d k m.
Proof.
  unfold optional_mapping, mapping_at. rewrite absent_cases. destruct (get_cases d k (PDict [])) as [(v & E & ->)|[E ->]]; unfold get_or; rewrite E; cbn beta iota.
  - destruct v; (split; [intros H; try discriminate H; injection H as <-; auto|intros [H|[H ->]]; try discriminate H; first [reflexivity|injection H as ->; reflexivity]]).
  - split; [intros [= <-]; auto|intros [H|[_ ->]]; [discriminate H|reflexivity]].
Qed.
Lemma optional_list_ok d k m : optional_list d k = Ok m <-> list_at d k m.
Proof.
  unfold optional_list, list_at. rewrite absent_cases. destruct (get_cases d k (PList [])) as [(v & E & ->)|[E ->]]; unfold get_or; rewrite E; cbn beta iota.
  - destruct v; (split; [intros H; try discriminate H; injection H as <-; auto|intros [H|[H ->]]; try discriminate H; first [reflexivity|injection H as ->; reflexivity]]).
  - split; [intros [= <-]; auto|intros [H|[_ ->]]; [discriminate H|reflexivity]].
Qed.
Lemma non_empty_ok {A} (l : list A) : non_empty l = Ok tt <-> l <> [].
Proof. destruct l; cbn; split; congruence. Qed.
Lemma seed_items_ok l : forall seen zs, seed_items seen l = Ok zs <-> Forall2 whole l zs /\ NoDup zs /\ (forall z, In z zs -> ~ In z seen).
Proof.
  induction l as [|v l IH]; intros seen zs; cbn [seed_items].
  - split; [intros [= <-]; repeat split; [constructor|constructor|intros ? []]|intros (F & _); inversion F; reflexivity].
  - destruct (int_of v) as [z|] eqn:Ez.
    + destruct (existsb (Z.eqb z) seen) eqn:Es.
      * split; [discriminate|]. intros (F & _ & N). inversion F as [|? z' ? ? W]; subst. apply int_of_ok in W. rewrite Ez in W. injection W as <-.
        exfalso. apply existsb_exists in Es. destruct Es as (x & Hx & Ex). apply Z.eqb_eq in Ex. subst x. apply (N z (or_introl eq_refl) Hx).
      * rewrite bind_iff. split.
        -- intros (r & E & [= <-]). apply IH in E. destruct E as (F & N & D). repeat split.
           ++ constructor; [apply int_of_ok, Ez|exact F].
           ++ constructor; [|exact N]. intros X. apply (D z X). left. reflexivity.
           ++ intros y [<-|Hy] X; [|apply (D y Hy); right; exact X]. rewrite <- not_true_iff_false, existsb_exists in Es. apply Es. exists z. split; [exact X|apply Z.eqb_refl].
        -- intros (F & N & D). inversion F as [|? z' ? r W F']; subst. apply int_of_ok in W. rewrite Ez in W. injection W as <-. inversion_clear N as [|? ? N1 N2].
           exists r. split; [|reflexivity]. apply IH. repeat split; [exact F'|exact N2|]. intros y Hy [<-|X]; [contradiction|apply (D y (or_intror Hy) X)].
    + split; [discriminate|]. intros (F & _). inversion F as [|? z' ? ? W]; subst. apply int_of_ok in W. congruence.
Qed.
Lemma seeds_ok d x : optional_seed_list d "seeds" = Ok x <-> seeds_at d x.
Proof.
  unfold optional_seed_list, seeds_at. destruct x as [zs|]; [|rewrite absent_cases]; (destruct (get_cases d "seeds" PNone) as [(v & E & ->)|[E ->]]; rewrite ?E).
  - destruct v; try (split; [discriminate|intros (? & ? & _); discriminate]). destruct l as [|a l].
    + split; [discriminate|]. intros (? & [= <-] & H & _). congruence.
    + rewrite bind_iff. split.
      * intros (r & H & [= <-]). apply seed_items_ok in H. exists (a :: l). repeat split; [discriminate|tauto|tauto].
      * intros (? & [= <-] & _ & F & N). exists zs. split; [|reflexivity]. apply seed_items_ok. repeat split; [exact F|exact N|intros ? _ []].
  - split; [discriminate|intros (? & ? & _); discriminate].
  - destruct v as [| | | | |l|]; try (split; congruence). destruct l; [split; congruence|]. rewrite bind_iff. split; [intros (? & _ & ?); discriminate|congruence].
  - split; congruence.
Qed.
Lemma printed_ok o d k dflt s : printed o d k dflt s <-> s = py_str o (get_or d k (PStr dflt)).
Proof.
  unfold printed. destruct (get_cases d k (PStr dflt)) as [(v & E & ->)|[E ->]]; rewrite E.
  - split; [intros [[X _]|(w & [= <-] & ->)]; [discriminate|reflexivity]|intros ->; right; eauto].
  - split; [intros [[_ ->]|(w & X & _)]; [reflexivity|discriminate]|intros ->; left; auto].
Qed.
Lemma as_mapping_ok v d : as_mapping v = Ok d <-> v = PDict d.
Proof. destruct v; cbn; (split; intros H; try discriminate H; injection H as ->; reflexivity). Qed.
Lemma section_ok data k d : as_mapping (get_or data k (PDict [])) = Ok d <-> section data k d.
Proof.
  rewrite as_mapping_ok. unfold section. destruct (get_cases data k (PDict [])) as [(v & E & ->)|[E ->]]; rewrite E.
  - split; [intros ->; auto|intros [[= <-]|[? _]]; [reflexivity|discriminate]].
  - split; [intros [= <-]; auto|intros [?|[_ ->]]; [discriminate|reflexivity]].
Qed.
Lemma mapping_non_empty d k m : mapping_at d k m /\ m <> [] <-> lookup d k = Some (PDict m) /\ m <> [].
Proof. unfold mapping_at. tauto. Qed.
Lemma list_non_empty d k m : list_at d k m /\ m <> [] <-> lookup d k = Some (PList m) /\ m <> [].
Proof. unfold list_at. tauto. Qed.

(* ----- the places of a search space ----- *)
Lemma leaf_place_target p : leaf_place p = true <-> target_path p = Ok tt.
Proof. destruct p as [|a [|b [|k r]]]; cbn; try (split; discriminate). destruct (String.eqb a "method" && String.eqb b "params"); split; congruence. Qed.
Lemma places_targets v : forall path, space_places v path = true <-> check_targets v path = Ok tt.
Proof.
  induction v as [l _|d IH|v H1 H2] using pyval_ind'; intros path.
  - destruct l; cbn; [split; discriminate|apply leaf_place_target].
  - destruct d as [|x0 d]; [cbn; split; discriminate|]. rewrite check_dict.
    assert (E : space_places (PDict (x0 :: d)) path = if memS "dist" (keys (x0 :: d)) then leaf_place path
      else forallb (fun kv => negb (String.eqb (fst kv) "") && space_places (snd kv) (path ++ [fst kv])) (x0 :: d)).
    { cbn [space_places]. destruct (memS "dist" (keys (x0 :: d))); [reflexivity|]. destruct x0 as [k0 w0]. cbn [forallb fst snd]. f_equal. clear. induction d as [|[k w] d IHl]; [reflexivity|]. cbn [forallb fst snd]. rewrite <- IHl. reflexivity. }
    rewrite E. destruct (memS "dist" (keys (x0 :: d))); [apply leaf_place_target|]. rewrite check_items_ok, forallb_forall. rewrite Forall_forall in IH. split.
    + intros H k w Hin. specialize (H _ Hin). cbn [fst snd] in H. apply andb_true_iff in H. destruct H as [Hk Hw]. split; [|apply (IH _ Hin), Hw].
      intros ->. discriminate Hk.
    + intros H [k w] Hin. cbn [fst snd]. destruct (H _ _ Hin) as [Hk Hw]. apply andb_true_iff. split; [|apply (IH _ Hin), Hw].
      destruct (String.eqb_spec k ""); [contradiction|reflexivity].
  - destruct v; cbn; try (split; discriminate); [exfalso; eapply H2; reflexivity|exfalso; eapply H1; reflexivity].
Qed.

Section Read.
Variable o : Oracle.
Variable sort : list string -> list string.
Variable metrics : list string.
Hypothesis Hsort : sorts sort.

Lemma space_ok d k m : unique_keys (PDict d) -> mapping_at d k m ->
  (m <> [] /\ space_places (PDict m) [] = true /\ check_space o sort m = Ok tt <->
   lookup d k = Some (PDict m) /\ valid_space o (PDict m) /\ lookup m "dist" = None /\ inside_params o m).
Proof.
  intros U M. destruct M as [E|[A ->]].
  2: { split; [intros (X & _); congruence|]. intros (X & _). destruct A; congruence. }
  assert (Um : unique_keys (PDict m)) by (eapply uk_child; eassumption).
  assert (C : check_space o sort m = Ok tt <-> exists ls, HpoModel.from_dict sort o m = Ok ls).
  { unfold check_space. destruct (HpoModel.from_dict sort o m) as [ls|e]; [split; eauto|]. split; [destruct e; discriminate|intros [? ?]; discriminate]. }
  rewrite C, (from_dict_accepts sort Hsort o m Um), places_targets. split.
  - intros (_ & P & V & D). repeat split; try assumption. intros p x Hd. pose proof (proj1 (check_spec o _ Um V []) P p x Hd) as G. exact G.
  - intros (_ & V & D & I). split; [|split; [|auto]].
    + intros ->. inversion V; subst; [eapply valid_dist_nonempty; [eassumption|reflexivity]|congruence].
    + apply (check_spec o _ Um V []). intros p x Hd. exact (I p x Hd).
Qed.

Lemma run_ok d r : parse_run o d = Ok r <-> reads_run o d r.
Proof.
  unfold parse_run, reads_run. rewrite bind_unit_iff, check_unknown_ok. apply and_iff_compat_l. split.
  - intros H. apply bind_iff in H. destruct H as (bench & Hb & H). apply bind_iff in H. destruct H as (fast & Hf & H). apply bind_unit_iff in H. destruct H as (Hc & H).
    apply bind_iff in H. destruct H as (name & Hn & H). apply bind_iff in H. destruct H as (seed & Hs & H). apply bind_iff in H. destruct H as (seeds & Hl & H).
    apply bind_iff in H. destruct H as (log & Hg & H). apply bind_iff in H. destruct H as (custom & Hu & H). injection H as <-. cbn.
    apply optional_bool_ok in Hb, Hf, Hu. apply require_str_ok in Hn. apply seeds_ok in Hl. apply optional_str_ok in Hg.
    split; [exact Hn|]. split. { destruct (get_cases d "seed" (PInt 0)) as [(v & E & X)|[E X]]; rewrite X in Hs; [right; eauto|left; injection Hs as <-; auto]. }
    split; [apply printed_ok; reflexivity|]. repeat (split; [assumption|]). intros ->. destruct fast; [reflexivity|discriminate Hc].
  - intros (Hn & Hs & Hp & Hl & Hf & Hg & Hb & Hu & Hc). apply optional_bool_ok in Hb, Hf, Hu. apply require_str_ok in Hn. apply seeds_ok in Hl. apply optional_str_ok in Hg. apply printed_ok in Hp.
    rewrite Hb, Hf. cbn [bind]. assert (X : (if rn_bench r && negb (rn_fail_fast r) then Err BenchError else Ok tt) = Ok tt).
    { destruct (rn_bench r); [rewrite Hc by reflexivity|]; reflexivity. }
    rewrite X, Hn. cbn [bind].
    assert (Y : py_int o (get_or d "seed" (PInt 0)) = Ok (rn_seed r)).
    { unfold get_or. destruct Hs as [[-> ->]|(v & -> & E)]; [reflexivity|exact E]. }
    rewrite Y, Hl, Hg, Hu, <- Hp. cbn. destruct r; reflexivity.
Qed.
Lemma limits_ok data x : parse_limits data = Ok x <-> limits_at data x.
Proof.
  unfold parse_limits, limits_at. destruct (lookup data "limits") as [v|] eqn:E.
  2: { destruct x; [|tauto]. split; [discriminate|]. intros (d & [X|[X _]] & _); discriminate. }
  assert (M : forall d, as_mapping (match v with PNone => PDict [] | _ => v end) = Ok d <-> (v = PDict d \/ (v = PNone /\ d = []))).
  { intros d. rewrite as_mapping_ok. destruct v; (split; [intros H; try discriminate H; injection H as <-; auto|intros [H|[H ->]]; try discriminate H; first [reflexivity|injection H as ->; reflexivity]]). }
  rewrite bind_iff. split.
  - intros (d & Hd & H). apply M in Hd. apply bind_unit_iff in H. destruct H as (Hk & H). apply check_unknown_ok in Hk. apply bind_iff in H. destruct H as (p & Hp & H). apply optional_str_ok in Hp.
    apply bind_iff in H. destruct H as (q & Hq & H). do 6 (apply bind_iff in H; destruct H as (? & ?%optional_positive_ok & H)). injection H as <-.
    exists d. split; [destruct Hd as [->|[-> ->]]; auto|]. unfold reads_limits; cbn. split; [exact Hk|]. split; [|auto 7].
    destruct p as [s|]; cbn in Hp; [|injection Hq as <-; exact Hp]. destruct Hp as [Hs _]. destruct (memS (lower_text s) ["auto"; "v100"; "h100"]) eqn:Hm; [|discriminate]. injection Hq as <-.
    apply memS_In in Hm. split; [exact Hm|eauto].
  - destruct x as [l|]; [|discriminate]. intros (d & Hd & Hk & Hp & H1 & H2 & H3 & H4 & H5 & H6). exists d. split; [apply M; destruct Hd as [[= ->]|[[= ->] ->]]; auto|].
    apply check_unknown_ok in Hk. apply optional_positive_ok in H1, H2, H3, H4, H5, H6. rewrite Hk. cbn [bind].
    destruct (lc_profile l) as [p|] eqn:Ep.
    + destruct Hp as (Hin & s & Hs & Hl). assert (Hw : optional_str d "profile" = Ok (Some s)).
      { apply optional_str_ok. split; [exact Hs|]. apply is_blank_iff. destruct (is_blank s) eqn:Hb; [|reflexivity]. exfalso.
        assert (Hblank : forall c, In c (list_ascii_of_string s) -> blank c).
        { intros c Hc. rewrite <- is_space_blank. destruct (is_space c) eqn:Hsp; [reflexivity|]. assert (W : written s) by (exists c; split; [exact Hc|rewrite <- is_space_blank; congruence]).
          apply is_blank_iff in W. congruence. }
        destruct s as [|c s]; [cbn in Hl; subst p; cbn in Hin; intuition discriminate|].
        assert (Bc : blank c) by (apply Hblank; left; reflexivity). unfold lower_text in Hl. cbn in Hl.
        assert (Lc : forall c, blank c -> lower c = c).
        { clear. intros c. rewrite <- is_space_blank. destruct c as [[] [] [] [] [] [] [] []]; intros H; first [discriminate H|reflexivity]. }
        rewrite (Lc c Bc) in Hl. rewrite <- Hl in Hin. rewrite <- is_space_blank in Bc. cbn in Hin. destruct Hin as [X|[X|[X|[]]]]; injection X as <- _; discriminate Bc. }
      rewrite Hw. cbn [bind]. rewrite Hl. apply memS_In in Hin. rewrite Hin. cbn [bind]. rewrite H1, H2, H3, H4, H5, H6. cbn. rewrite <- Ep. destruct l; reflexivity.
    + assert (Hw : optional_str d "profile" = Ok None) by (apply optional_str_ok; exact Hp). rewrite Hw. cbn [bind]. rewrite H1, H2, H3, H4, H5, H6. cbn. rewrite <- Ep. destruct l; reflexivity.
Qed.
Lemma dataset_ok d c : parse_dataset d = Ok c <-> reads_dataset d c.
Proof.
  unfold parse_dataset, reads_dataset. rewrite bind_unit_iff, check_unknown_ok. apply and_iff_compat_l. split.
  - intros H. apply bind_iff in H. destruct H as (a & Ha%require_str_ok & H). apply bind_iff in H. destruct H as (b & Hb%optional_mapping_ok & H). apply bind_iff in H. destruct H as (e & He%optional_bool_ok & H).
    apply bind_iff in H. destruct H as (f & Hf%optional_str_ok & H). injection H as <-. cbn. auto.
  - intros (Ha%require_str_ok & Hb%optional_mapping_ok & He%optional_bool_ok & Hf%optional_str_ok). rewrite Ha, Hb, He, Hf. destruct c; reflexivity.
Qed.
Lemma plan_ok d c : parse_plan d = Ok c <-> reads_plan d c.
Proof.
  unfold parse_plan, reads_plan. rewrite bind_unit_iff, check_unknown_ok. apply and_iff_compat_l. split.
  - intros H. apply bind_iff in H. destruct H as (a & Ha%optional_mapping_ok & H). apply bind_unit_iff in H. destruct H as (Hn%non_empty_ok & H). apply bind_iff in H. destruct H as (b & Hb%optional_int_ok & H).
    injection H as <-. cbn. destruct (proj1 (mapping_non_empty d "plan" a) (conj Ha Hn)). auto.
  - intros (Ha & Hn & Hb%optional_int_ok). assert (Hm : optional_mapping d "plan" = Ok (pl_plan c)) by (apply optional_mapping_ok; left; exact Ha). apply non_empty_ok in Hn. rewrite Hm. cbn [bind]. rewrite Hn, Hb. destruct c; reflexivity.
Qed.
Lemma preprocess_ok d c : parse_preprocess d = Ok c <-> reads_preprocess d c.
Proof.
  unfold parse_preprocess, reads_preprocess. rewrite bind_unit_iff, check_unknown_ok. apply and_iff_compat_l. split.
  - intros H. apply bind_iff in H. destruct H as (a & Ha%optional_mapping_ok & H). apply bind_unit_iff in H. destruct H as (Hn%non_empty_ok & H). apply bind_iff in H. destruct H as (b & Hb%optional_int_ok & H).
    apply bind_iff in H. destruct H as (e & He%optional_str_ok & H). apply bind_iff in H. destruct H as (f & Hf%optional_bool_ok & H). apply bind_iff in H. destruct H as (g & Hg%optional_str_ok & H).
    injection H as <-. cbn. destruct (proj1 (mapping_non_empty d "plan" a) (conj Ha Hn)). auto 7.
  - intros (Ha & Hn & Hb%optional_int_ok & He%optional_str_ok & Hf%optional_bool_ok & Hg%optional_str_ok).
    assert (Hm : optional_mapping d "plan" = Ok (pc_plan c)) by (apply optional_mapping_ok; left; exact Ha). apply non_empty_ok in Hn. rewrite Hm. cbn [bind]. rewrite Hn, Hb, He, Hf, Hg. destruct c; reflexivity.
Qed.
Lemma graph_ok d c : parse_graph d = Ok c <-> reads_graph d c.
Proof.
  unfold parse_graph, reads_graph. rewrite bind_unit_iff, check_unknown_ok. apply and_iff_compat_l. split.
  - intros H. apply bind_iff in H. destruct H as (a & Ha%optional_bool_ok & H). apply bind_iff in H. destruct H as (b & Hb%optional_int_ok & H).
    apply bind_iff in H. destruct H as (e & He%optional_bool_ok & H). apply bind_iff in H. destruct H as (f & Hf%optional_str_ok & H). apply bind_iff in H. destruct H as (g & Hg%optional_mapping_ok & H).
    injection H as <-. cbn. auto 7.
  - intros (Ha%optional_bool_ok & Hb%optional_int_ok & He%optional_bool_ok & Hf%optional_str_ok & Hg%optional_mapping_ok). rewrite Ha, Hb, He, Hf, Hg. destruct c; reflexivity.
Qed.
Lemma aug_ok d c : parse_aug o d = Ok c <-> reads_aug o d c.
Proof.
  unfold parse_aug, reads_aug. rewrite bind_unit_iff, check_unknown_ok. apply and_iff_compat_l. split.
  - intros H. apply bind_iff in H. destruct H as (a & Ha%optional_bool_ok & H). apply bind_iff in H. destruct H as (b & Hb%optional_int_ok & H).
    apply bind_iff in H. destruct H as (e & He%optional_mapping_ok & H). apply bind_iff in H. destruct H as (f & Hf%optional_mapping_ok & H). apply bind_iff in H. destruct H as (g & Hg%optional_str_ok & H).
    injection H as <-. cbn. repeat (split; [assumption|]). split; [apply printed_ok; reflexivity|auto].
  - intros (Ha%optional_bool_ok & Hb%optional_int_ok & Hp%printed_ok & He%optional_mapping_ok & Hf%optional_mapping_ok & Hg%optional_str_ok). rewrite Ha, Hb, He, Hf, Hg, <- Hp. destruct c; reflexivity.
Qed.
Lemma device_ok d c : parse_device o d = Ok c <-> reads_device o d c.
Proof.
  unfold parse_device, reads_device. rewrite bind_unit_iff, check_unknown_ok. apply and_iff_compat_l. split.
  - intros H. apply bind_iff in H. destruct H as (a & Ha%optional_str_ok & H). injection H as <-. cbn. split; [apply printed_ok; reflexivity|]. split; [apply printed_ok; reflexivity|exact Ha].
  - intros (Hp%printed_ok & Hq%printed_ok & Ha%optional_str_ok). rewrite Ha, <- Hp, <- Hq. destruct c; reflexivity.
Qed.
Lemma keys_lookup d k : memS k (keys d) = true <-> exists v, lookup d k = Some v.
Proof.
  destruct (lookup d k) as [v|] eqn:E.
  - split; [eauto|intros _]. destruct (memS k (keys d)) eqn:M; [reflexivity|]. apply memS_keys in M. congruence.
  - split; [|intros [? ?]; discriminate]. apply memS_keys in E. congruence.
Qed.
Lemma only_none d ks k : only d ks -> ~ In k ks -> memS k (keys d) = false.
Proof. intros O N. destruct (memS k (keys d)) eqn:M; [|reflexivity]. apply memS_In in M. exfalso. apply N, O, M. Qed.
Lemma backend_ok d b : match get_or d "classifier_backend" (PStr "torch") with PStr s => if is_blank s then Err BenchError else Ok s | _ => Err BenchError end = Ok b <->
  text_at d "classifier_backend" b \/ (lookup d "classifier_backend" = None /\ b = "torch").
Proof.
  unfold text_at. rewrite <- is_blank_iff. destruct (get_cases d "classifier_backend" (PStr "torch")) as [(v & E & ->)|[E ->]]; rewrite E.
  - destruct v; try (split; [discriminate|intros [[? _]|[? _]]; discriminate]). destruct (is_blank s) eqn:Hs; split.
    + discriminate.
    + intros [[[= <-] X]|[X _]]; congruence.
    + intros [= <-]. auto.
    + intros [[[= <-] X]|[X _]]; congruence.
  - cbn. split; [intros [= <-]; auto|intros [[X _]|[_ ->]]; [discriminate|reflexivity]].
Qed.
Lemma ema_ok d x : match get_or d "ema" PNone with PNone => Ok None | PBool b => Ok (Some b) | _ => Err BenchError end = Ok x <->
  match x with None => absent d "ema" | Some b => lookup d "ema" = Some (PBool b) end.
Proof.
  destruct x as [b|]; [|rewrite absent_cases]; (destruct (get_cases d "ema" PNone) as [(v & E & ->)|[E ->]]; rewrite ?E); try (split; congruence); destruct v; split; congruence.
Qed.
Lemma model_ok custom d m : parse_model custom (get_or d "model" PNone) = Ok m <-> reads_model custom d m.
Proof.
  assert (A : get_or d "model" PNone = PNone -> (parse_model custom (get_or d "model" PNone) = Ok m <-> reads_model custom d m)).
  { intros E. rewrite E. cbn. assert (Ab : absent d "model") by (apply absent_cases; exact E). split; [intros [= <-]; exact Ab|]. destruct m as [[]|]; cbn; [| |reflexivity];
      (intros X; exfalso; [destruct X as (_ & q & X & _)||destruct X as (q & X & _)]; destruct Ab; congruence). }
  destruct (get_cases d "model" PNone) as [(v & E & G)|[E G]]; [|auto].
  destruct v as [| | | | | |q]; [auto| | | | | |]; rewrite G; cbn [parse_model as_mapping bind];
    try (split; [discriminate|]; destruct m as [[]|]; cbn; [intros (_ & q & X & _)|intros (q & X & _)|intros [X|X]]; congruence).
  cbv zeta. destruct (memS "factory" (keys q)) eqn:Ef, (memS "classifier_id" (keys q)) eqn:Ec; cbn [andb negb].
  - split; [discriminate|]. destruct m as [[]|]; cbn.
    + intros (_ & q' & X & O & _). rewrite E in X. injection X as <-. rewrite (only_none _ _ "classifier_id" O) in Ec by (cbn; intuition discriminate). discriminate.
    + intros (q' & X & O & _). rewrite E in X. injection X as <-. rewrite (only_none _ _ "factory" O) in Ef by (cbn; intuition discriminate). discriminate.
    + intros [X|X]; congruence.
  - destruct custom; cbn [negb].
    + rewrite bind_unit_iff, check_unknown_ok. split.
      * intros (O & H). apply bind_iff in H. destruct H as (f & Hf%require_str_ok & H). apply bind_iff in H. destruct H as (ps & Hp%optional_mapping_ok & H). injection H as <-. cbn. split; [reflexivity|]. eauto 7.
      * destruct m as [[]|]; cbn.
        -- intros (_ & q' & X & O & Hf%require_str_ok & Hp%optional_mapping_ok). rewrite E in X. injection X as <-. split; [exact O|]. rewrite Hf, Hp. reflexivity.
        -- intros (q' & X & O & [Hl _] & _). rewrite E in X. injection X as <-. exfalso. apply memS_keys in Ec. congruence.
        -- intros [X|X]; congruence.
    + split; [discriminate|]. destruct m as [[]|]; cbn.
      * intros (X & _). discriminate.
      * intros (q' & X & O & _). rewrite E in X. injection X as <-. rewrite (only_none _ _ "factory" O) in Ef by (cbn; intuition discriminate). discriminate.
      * intros [X|X]; congruence.
  - rewrite bind_unit_iff, check_unknown_ok. split.
    + intros (O & H). apply bind_iff in H. destruct H as (b & Hb%backend_ok & H). apply bind_iff in H. destruct H as (e & He%ema_ok & H). apply bind_iff in H. destruct H as (i & Hi%require_str_ok & H).
      apply bind_iff in H. destruct H as (ps & Hp%optional_mapping_ok & H). injection H as <-. cbn. exists q. auto 7.
    + destruct m as [[]|]; cbn.
      * intros (_ & q' & X & O & [Hl _] & _). rewrite E in X. injection X as <-. exfalso. apply memS_keys in Ef. congruence.
      * intros (q' & X & O & Hi%require_str_ok & Hb%backend_ok & Hp%optional_mapping_ok & He%ema_ok). rewrite E in X. injection X as <-. split; [exact O|]. rewrite Hb. cbn [bind]. rewrite He. cbn [bind]. rewrite Hi, Hp. reflexivity.
      * intros [X|X]; congruence.
  - apply memS_keys in Ef, Ec. split; [discriminate|]. destruct m as [[]|]; cbn.
    + intros (_ & q' & X & O & [Hl _] & _). congruence.
    + intros (q' & X & O & [Hl _] & _). congruence.
    + intros [X|X]; congruence.
Qed.
Lemma in_text (s : string) ks : In s ks -> Forall written ks -> written s.
Proof. intros H F. rewrite Forall_forall in F. auto. Qed.
Lemma written_lit s : is_blank s = false -> written s. Proof. apply is_blank_iff. Qed.
Lemma method_ok custom d c : parse_method o custom d = Ok c <-> reads_method o custom d c.
Proof.
  unfold parse_method, reads_method. rewrite bind_unit_iff, check_unknown_ok. apply and_iff_compat_l. split.
  - intros H. apply bind_iff in H. destruct H as (kind & Hk%require_str_ok & H). apply bind_unit_iff in H. destruct H as (Hin & H). apply check_iff, memS_In in Hin.
    apply bind_iff in H. destruct H as (dv & Hd%section_ok & H). apply bind_iff in H. destruct H as (dev & Hv%device_ok & H). apply bind_iff in H. destruct H as (m & Hm%model_ok & H).
    apply bind_iff in H. destruct H as (i & Hi%require_str_ok & H). apply bind_iff in H. destruct H as (ps & Hp%optional_mapping_ok & H). injection H as <-. cbn [mc_kind mc_id mc_device mc_params mc_model].
    destruct Hk. eauto 10.
  - intros ([Hk Hin] & Hi%require_str_ok & (dv & Hd%section_ok & Hv%device_ok) & Hp%optional_mapping_ok & Hm%model_ok).
    assert (K : require_str d "kind" = Ok (mc_kind c)).
    { apply require_str_ok. split; [exact Hk|]. apply (in_text _ _ Hin). repeat constructor; apply written_lit; reflexivity. }
    rewrite K. cbn [bind]. apply memS_In in Hin. rewrite Hin. cbn [bind]. rewrite Hd. cbn [bind]. rewrite Hv. cbn [bind]. rewrite Hm. cbn [bind]. rewrite Hi. cbn [bind]. rewrite Hp. destruct c; reflexivity.
Qed.
Lemma eval_ok d c : parse_eval o d = Ok c <-> reads_eval o d c.
Proof.
  unfold parse_eval, reads_eval. rewrite bind_unit_iff, check_unknown_ok. apply and_iff_compat_l. split.
  - intros H. apply bind_iff in H. destruct H as (a & Ha%optional_list_ok & H). apply bind_iff in H. destruct H as (b & Hb%optional_list_ok & H). apply bind_unit_iff in H. destruct H as (Na%non_empty_ok & H).
    apply bind_unit_iff in H. destruct H as (Nb%non_empty_ok & H). apply bind_iff in H. destruct H as (e & He%optional_str_ok & H). injection H as <-. cbn.
    destruct (proj1 (list_non_empty _ _ _) (conj Ha Na)), (proj1 (list_non_empty _ _ _) (conj Hb Nb)). eauto 10.
  - intros ((a & Ha & Na & Ea) & (b & Hb & Nb & Eb) & He%optional_str_ok).
    assert (Ka : optional_list d "report_splits" = Ok a) by (apply optional_list_ok; left; exact Ha). assert (Kb : optional_list d "metrics" = Ok b) by (apply optional_list_ok; left; exact Hb).
    apply non_empty_ok in Na, Nb. rewrite Ka. cbn [bind]. rewrite Kb. cbn [bind]. rewrite Na. cbn [bind]. rewrite Nb. cbn [bind]. rewrite He. cbn [bind]. rewrite <- Ea, <- Eb. destruct c; reflexivity.
Qed.
Lemma search_ok d c : unique_keys (PDict d) -> (parse_search o sort metrics d = Ok c <-> reads_search o metrics d c).
Proof.
  intros U. unfold parse_search, reads_search. rewrite bind_unit_iff, check_unknown_ok. apply and_iff_compat_l. split.
  - intros H. apply bind_iff in H. destruct H as (en & Hen%require_bool_ok & H). apply bind_iff in H. destruct H as (kind & Hk%require_str_ok & H).
    apply bind_unit_iff in H. destruct H as (Hkin & H). apply check_iff, memS_In in Hkin. apply bind_iff in H. destruct H as (seed & Hs%optional_int_ok & H). apply bind_iff in H. destruct H as (tr & Ht%optional_int_ok & H).
    apply bind_unit_iff in H. destruct H as (Htp & H). apply bind_unit_iff in H. destruct H as (Hrs & H). apply bind_unit_iff in H. destruct H as (Hrt & H). apply bind_iff in H. destruct H as (rep & Hr%optional_int_ok & H).
    cbv zeta in H. apply bind_unit_iff in H. destruct H as (Hrp & H). apply bind_iff in H. destruct H as (ob & Hob%section_ok & H). apply bind_unit_iff in H. destruct H as (Oob%check_unknown_ok & H).
    apply bind_iff in H. destruct H as (sp & Hsp%require_str_ok & H). apply bind_iff in H. destruct H as (me & Hme%require_str_ok & H). apply bind_iff in H. destruct H as (di & Hdi%require_str_ok & H). apply bind_iff in H. destruct H as (ag & Hag%require_str_ok & H).
    apply bind_unit_iff in H. destruct H as (I1 & H). apply check_iff, memS_In in I1. apply bind_unit_iff in H. destruct H as (I2 & H). apply check_iff, memS_In in I2. apply bind_unit_iff in H. destruct H as (I3 & H). apply check_iff, memS_In in I3.
    apply bind_unit_iff in H. destruct H as (I4 & H). apply check_iff, String.eqb_eq in I4. apply bind_iff in H. destruct H as (space & Hspace%optional_mapping_ok & H). apply bind_unit_iff in H. destruct H as (Hne%non_empty_ok & H).
    apply bind_unit_iff in H. destruct H as (Hpl & H). apply check_iff in Hpl. apply bind_unit_iff in H. destruct H as (Hcs & H). injection H as <-. cbn.
    destruct Hk as [Hk _]. split; [exact Hen|]. split; [auto|]. split; [exact Hs|].
    split. { split; [exact Ht|]. intros z ->. destruct (z <=? 0) eqn:Hz; [discriminate|lia]. }
    split. { intros ->. cbn in Hrs, Hrt. destruct seed; [|discriminate]. destruct tr; [|discriminate]. split; discriminate. }
    split. { destruct rep as [n|]; (split; [destruct (_ <=? 0) eqn:Hz in Hrp; [discriminate|lia]|auto]). }
    split; [exists ob; auto 12|]. apply space_ok; auto.
  - intros (Hen%require_bool_ok & [Hk Hkin] & Hs%optional_int_ok & [Ht Htp] & Hrand & [Hrp Hr] & (ob & Hob%section_ok & Oob%check_unknown_ok & Hsp%require_str_ok & I1%memS_In & Hme%require_str_ok & I2%memS_In & Hdi%require_str_ok & I3%memS_In & Hag%require_str_ok & I4) & Hspace).
    assert (K : require_str d "kind" = Ok (sc_kind c)).
    { apply require_str_ok. split; [exact Hk|]. apply (in_text _ _ Hkin). repeat constructor; apply written_lit; reflexivity. }
    apply optional_int_ok in Ht. apply memS_In in Hkin.
    assert (Mp : mapping_at d "space" (sc_space c)) by (left; exact (proj1 Hspace)). apply (space_ok d "space" _ U Mp) in Hspace. destruct Hspace as (Hne%non_empty_ok & Hpl & Hcs). apply optional_mapping_ok in Mp.
    rewrite Hen. cbn [bind]. rewrite K. cbn [bind]. rewrite Hkin. cbn [bind]. rewrite Hs. cbn [bind]. rewrite Ht. cbn [bind].
    assert (X1 : match sc_trials c with Some n => if n <=? 0 then Err BenchError else Ok tt | None => Ok tt end = Ok tt).
    { destruct (sc_trials c) as [n|]; [|reflexivity]. specialize (Htp n eq_refl). destruct (n <=? 0) eqn:Hz; [lia|reflexivity]. }
    rewrite X1. cbn [bind].
    assert (X2 : (if String.eqb (sc_kind c) "random" then match sc_seed c with None => Err BenchError | Some _ => Ok tt end else Ok tt) = Ok tt).
    { destruct (String.eqb_spec (sc_kind c) "random") as [E|]; [|reflexivity]. destruct (Hrand E) as [A _]. destruct (sc_seed c); [reflexivity|congruence]. }
    assert (X3 : (if String.eqb (sc_kind c) "random" then match sc_trials c with None => Err BenchError | Some _ => Ok tt end else Ok tt) = Ok tt).
    { destruct (String.eqb_spec (sc_kind c) "random") as [E|]; [|reflexivity]. destruct (Hrand E) as [_ A]. destruct (sc_trials c); [reflexivity|congruence]. }
    rewrite X2. cbn [bind]. rewrite X3. cbn [bind].
    assert (X4 : exists rep, optional_int d "repeats" = Ok rep /\ match rep with Some n => n | None => 1 end = sc_repeats c).
    { destruct Hr as [Hr|[Hr ->]]; [exists (Some (sc_repeats c))|exists None]; (split; [apply optional_int_ok; exact Hr|reflexivity]). }
    destruct X4 as (rep & X4 & X5). rewrite X4. cbn [bind]. cbv zeta. rewrite X5. assert (X6 : (sc_repeats c <=? 0) = false) by lia. rewrite X6. cbn [bind].
    rewrite Hob. cbn [bind]. rewrite Oob. cbn [bind]. rewrite Hsp. cbn [bind]. rewrite Hme. cbn [bind]. rewrite Hdi. cbn [bind]. rewrite Hag. cbn [bind].
    rewrite I1. cbn [bind]. rewrite I2. cbn [bind]. rewrite I3. cbn [bind]. rewrite I4. cbn [bind String.eqb Ascii.eqb Bool.eqb]. rewrite Mp. cbn [bind]. rewrite Hne. cbn [bind]. rewrite Hpl. cbn [bind]. rewrite Hcs. cbn [bind]. rewrite <- I4. destruct c; reflexivity.
Qed.
Lemma required_iff {A} (f : pydict -> result A) (R : pydict -> A -> Prop) data k a : (forall d x, lookup data k = Some (PDict d) \/ d = [] -> (f d = Ok x <-> R d x)) -> (forall x, ~ R [] x) ->
  (parse_section f data k = Ok a <-> required data k R a).
Proof.
  intros H N. unfold parse_section, required. rewrite bind_iff. split.
  - intros (d & Hd%section_ok & Hf). destruct Hd as [E|[_ ->]]; [exists d; split; [exact E|apply H; auto]|]. exfalso. apply (N a). apply H; auto.
  - intros (d & E & Hr). exists d. split; [apply section_ok; left; exact E|apply H; auto].
Qed.
Lemma maybe_iff {A} (f : pydict -> result A) (R : pydict -> A -> Prop) data k a : (forall d x, lookup data k = Some (PDict d) -> (f d = Ok x <-> R d x)) -> (parse_optional f data k = Ok a <-> maybe data k R a).
Proof.
  intros H. unfold parse_optional, maybe. destruct (lookup data k) as [v|] eqn:E.
  - rewrite bind_iff. split.
    + intros (d & Hd & Hf). apply as_mapping_ok in Hd. subst v. apply bind_iff in Hf. destruct Hf as (x & Hx & [= <-]). exists d. split; [reflexivity|apply H; auto].
    + destruct a as [x|]; [|discriminate]. intros (d & [= ->] & Hr). exists d. split; [reflexivity|]. apply bind_iff. exists x. split; [apply H; auto|reflexivity].
  - destruct a as [x|]; [split; [discriminate|intros (d & X & _); discriminate]|tauto].
Qed.

Theorem parse_iff data c : unique_keys (PDict data) -> (parse o sort metrics (PDict data) = Ok c <-> reads o metrics data c).
Proof.
  intros U. unfold parse, reads. cbn [as_mapping bind]. rewrite bind_unit_iff, check_unknown_ok. apply and_iff_compat_l.
  assert (R1 : forall x, parse_section (parse_run o) data "run" = Ok x <-> required data "run" (reads_run o) x).
  { intros x. apply required_iff; [intros; apply run_ok|]. intros y (_ & [X _] & _). discriminate. }
  assert (R2 : forall x, parse_section parse_dataset data "dataset" = Ok x <-> required data "dataset" reads_dataset x).
  { intros x. apply required_iff; [intros; apply dataset_ok|]. intros y (_ & [X _] & _). discriminate. }
  assert (R3 : forall x, parse_section parse_plan data "sampling" = Ok x <-> required data "sampling" reads_plan x).
  { intros x. apply required_iff; [intros; apply plan_ok|]. intros y (_ & X & _). discriminate. }
  assert (R4 : forall x, parse_section parse_preprocess data "preprocess" = Ok x <-> required data "preprocess" reads_preprocess x).
  { intros x. apply required_iff; [intros; apply preprocess_ok|]. intros y (_ & X & _). discriminate. }
  assert (R5 : forall x, parse_optional parse_plan data "views" = Ok x <-> maybe data "views" reads_plan x) by (intros x; apply maybe_iff; intros; apply plan_ok).
  assert (R6 : forall x, parse_optional parse_graph data "graph" = Ok x <-> maybe data "graph" reads_graph x) by (intros x; apply maybe_iff; intros; apply graph_ok).
  assert (R7 : forall x, parse_optional (parse_aug o) data "augmentation" = Ok x <-> maybe data "augmentation" (reads_aug o) x) by (intros x; apply maybe_iff; intros; apply aug_ok).
  assert (R8 : forall b x, parse_section (parse_method o b) data "method" = Ok x <-> required data "method" (reads_method o b) x).
  { intros b x. apply required_iff; [intros; apply method_ok|]. intros y (_ & [X _] & _). discriminate. }
  assert (R9 : forall x, parse_section (parse_eval o) data "evaluation" = Ok x <-> required data "evaluation" (reads_eval o) x).
  { intros x. apply required_iff; [intros; apply eval_ok|]. intros y (_ & (? & X & _) & _). discriminate. }
  assert (R10 : forall x, parse_optional (parse_search o sort metrics) data "search" = Ok x <-> maybe data "search" (reads_search o metrics) x).
  { intros x. apply maybe_iff. intros d y E. apply search_ok. eapply uk_child; eassumption. }
  split.
  - intros H. apply bind_iff in H. destruct H as (x1 & ?%R1 & H). apply bind_iff in H. destruct H as (x2 & ?%limits_ok & H). apply bind_iff in H. destruct H as (x3 & ?%R2 & H). apply bind_iff in H. destruct H as (x4 & ?%R3 & H).
    apply bind_iff in H. destruct H as (x5 & ?%R4 & H). apply bind_iff in H. destruct H as (x6 & ?%R5 & H). apply bind_iff in H. destruct H as (x7 & ?%R6 & H). apply bind_iff in H. destruct H as (x8 & ?%R7 & H).
    apply bind_iff in H. destruct H as (x9 & ?%R8 & H). apply bind_iff in H. destruct H as (x10 & ?%R9 & H). apply bind_iff in H. destruct H as (x11 & ?%R10 & H). injection H as <-.
    cbn [xc_run xc_limits xc_dataset xc_sampling xc_preprocess xc_method xc_eval xc_graph xc_views xc_aug xc_search]. repeat (split; [assumption|]). assumption.
  - intros (H1%R1 & H2%limits_ok & H3%R2 & H4%R3 & H5%R4 & H6%R5 & H7%R6 & H8%R7 & H9%R8 & H10%R9 & H11%R10).
    rewrite H1. cbn [bind]. rewrite H2. cbn [bind]. rewrite H3. cbn [bind]. rewrite H4. cbn [bind]. rewrite H5. cbn [bind]. rewrite H6. cbn [bind]. rewrite H7. cbn [bind]. rewrite H8. cbn [bind]. rewrite H9. cbn [bind]. rewrite H10. cbn [bind]. rewrite H11. cbn [bind].
    destruct c; reflexivity.
Qed.
End Read.

(* ----- the errors ----- *)
Definition errs (P : exn -> Prop) {A} (r : result A) : Prop := forall e, r = Err e -> P e.
Lemma errs_bind P {A B} (r : result A) (f : A -> result B) : errs P r -> (forall a, errs P (f a)) -> errs P (bind r f).
Proof. intros H F e E. destruct r as [a|e']; cbn in E; [eapply F, E|injection E as <-; apply H; reflexivity]. Qed.
Lemma errs_ok P {A} (a : A) : errs P (Ok a). Proof. intros e E. discriminate. Qed.
Lemma errs_bench (P : exn -> Prop) {A} : P BenchError -> errs P (@Err A BenchError). Proof. intros H e [= <-]. exact H. Qed.
Ltac leaf := repeat match goal with
  | |- errs _ (Ok _) => apply errs_ok
  | |- errs _ (Err BenchError) => apply errs_bench; assumption
  | |- errs _ (bind _ _) => apply errs_bind; [|intros ?]
  | |- errs _ (match ?x with _ => _ end) => destruct x
  | |- errs _ (let _ := _ in _) => cbv zeta
  end.
Section Errors.
Variable o : Oracle.
Variable sort : list string -> list string.
Variable metrics : list string.
Variable P : exn -> Prop.
Hypothesis HP : P BenchError.
Lemma e_unknown d ks : errs P (check_unknown d ks). Proof. unfold check_unknown. leaf. Qed.
Lemma e_str d k : errs P (require_str d k). Proof. unfold require_str. leaf. Qed.
Lemma e_rbool d k : errs P (require_bool d k). Proof. unfold require_bool. leaf. Qed.
Lemma e_ostr d k : errs P (optional_str d k). Proof. unfold optional_str. leaf. Qed.
Lemma e_int d k : errs P (optional_int d k).
Proof. unfold optional_int. destruct (get_or d k PNone) as [| | | | | |]; cbn [int_of]; leaf. Qed.
Lemma e_items l : forall seen, errs P (seed_items seen l). Proof. induction l as [|v l IH]; intros seen; cbn [seed_items]; leaf. apply IH. Qed.
Lemma e_seeds d k : errs P (optional_seed_list d k). Proof. unfold optional_seed_list. leaf. apply e_items. Qed.
Lemma e_pos d k : errs P (optional_positive_int d k). Proof. unfold optional_positive_int. apply errs_bind; [apply e_int|]. intros a. leaf. Qed.
Lemma e_bool d k b : errs P (optional_bool d k b). Proof. unfold optional_bool. leaf. Qed.
Lemma e_map d k : errs P (optional_mapping d k). Proof. unfold optional_mapping. leaf. Qed.
Lemma e_list d k : errs P (optional_list d k). Proof. unfold optional_list. leaf. Qed.
Lemma e_as v : errs P (as_mapping v). Proof. unfold as_mapping. leaf. Qed.
Lemma e_ne {A} (l : list A) : errs P (non_empty l). Proof. unfold non_empty. leaf. Qed.
Ltac getter := first [apply e_unknown|apply e_str|apply e_rbool|apply e_ostr|apply e_int|apply e_seeds|apply e_pos|apply e_bool|apply e_map|apply e_list|apply e_as|apply e_ne].
Ltac walk := repeat first [getter | apply errs_ok | apply errs_bench; assumption | apply errs_bind; [|intros ?] | progress cbv zeta | match goal with |- errs _ (match ?x with _ => _ end) => destruct x end].
Lemma e_run d : (forall e, py_int o (get_or d "seed" (PInt 0)) = Err e -> P e) -> errs P (parse_run o d).
Proof. intros H. unfold parse_run. walk. exact H. Qed.
Lemma e_limits d : errs P (parse_limits d). Proof. unfold parse_limits. walk. Qed.
Lemma e_dataset d : errs P (parse_dataset d). Proof. unfold parse_dataset. walk. Qed.
Lemma e_plan d : errs P (parse_plan d). Proof. unfold parse_plan. walk. Qed.
Lemma e_pre d : errs P (parse_preprocess d). Proof. unfold parse_preprocess. walk. Qed.
Lemma e_graph d : errs P (parse_graph d). Proof. unfold parse_graph. walk. Qed.
Lemma e_aug d : errs P (parse_aug o d). Proof. unfold parse_aug. walk. Qed.
Lemma e_model b v : errs P (parse_model b v). Proof. unfold parse_model. walk. Qed.
Lemma e_device d : errs P (parse_device o d). Proof. unfold parse_device. walk. Qed.
Lemma e_method b d : errs P (parse_method o b d). Proof. unfold parse_method. repeat first [apply e_device|apply e_model|getter|apply errs_ok|apply errs_bench; assumption|apply errs_bind; [|intros ?]|match goal with |- errs _ (if ?x then _ else _) => destruct x end]. Qed.
Lemma e_eval d : errs P (parse_eval o d). Proof. unfold parse_eval. walk. Qed.
Lemma e_search d : (forall m e, optional_mapping d "space" = Ok m -> HpoModel.from_dict sort o m = Err e -> e <> HpoError -> P e) -> errs P (parse_search o sort metrics d).
Proof.
  intros H. unfold parse_search.
  do 21 (apply errs_bind; [walk|intros ?; cbv zeta]).
  destruct (optional_mapping d "space") as [m|e0] eqn:Em; [|intros e; cbn; intros [= <-]; eapply e_map; exact Em]. cbn [bind].
  do 2 (apply errs_bind; [walk|intros ?]). apply errs_bind; [|intros ?; walk].
  intros e E. unfold check_space in E. destruct (HpoModel.from_dict sort o m) as [ls|e'] eqn:F; [discriminate|].
  assert (D : e' = HpoError \/ e' <> HpoError) by (destruct e'; (left; reflexivity) || (right; discriminate)).
  destruct D as [->|D]; [injection E as <-; exact HP|]. apply (H m e eq_refl); [|destruct e'; congruence]. destruct e'; congruence.
Qed.
End Errors.
Theorem parse_errors o sort metrics data e : parse o sort metrics (PDict data) = Err e ->
  e = BenchError \/ (exists d, section data "run" d /\ py_int o (get_or d "seed" (PInt 0)) = Err e) \/
  (exists d m, lookup data "search" = Some (PDict d) /\ mapping_at d "space" m /\ HpoModel.from_dict sort o m = Err e /\ e <> HpoError).
Proof.
  revert e. set (P := fun e => e = BenchError \/ (exists d, section data "run" d /\ py_int o (get_or d "seed" (PInt 0)) = Err e) \/
    (exists d m, lookup data "search" = Some (PDict d) /\ mapping_at d "space" m /\ HpoModel.from_dict sort o m = Err e /\ e <> HpoError)).
  change (errs P (parse o sort metrics (PDict data))). assert (HP : P BenchError) by (left; reflexivity). unfold parse. cbn [as_mapping bind].
  apply errs_bind; [apply e_unknown, HP|intros _]. apply errs_bind.
  { unfold parse_section. intros e E. destruct (as_mapping (get_or data "run" (PDict []))) as [d|e'] eqn:Ed; cbn in E; [|injection E as <-; eapply e_as; eassumption].
    revert e E. apply e_run; [exact HP|]. intros e E. right. left. exists d. split; [apply section_ok, Ed|exact E]. }
  intros run. apply errs_bind; [apply e_limits, HP|intros ?].
  assert (S : forall A (f : pydict -> result A) k, (forall d, errs P (f d)) -> errs P (parse_section f data k)) by (intros A f k F; unfold parse_section; apply errs_bind; [apply e_as, HP|exact F]).
  assert (M : forall A (f : pydict -> result A) k, (forall d, lookup data k = Some (PDict d) -> errs P (f d)) -> errs P (parse_optional f data k)).
  { intros A f k F. unfold parse_optional. destruct (lookup data k) as [v|] eqn:E; [|apply errs_ok]. destruct v; try (apply errs_bench; exact HP). cbn [as_mapping bind]. apply errs_bind; [apply F, eq_refl|intros ?; apply errs_ok]. }
  apply errs_bind; [apply S; intros; apply e_dataset, HP|intros ?]. apply errs_bind; [apply S; intros; apply e_plan, HP|intros ?]. apply errs_bind; [apply S; intros; apply e_pre, HP|intros ?].
  apply errs_bind; [apply M; intros; apply e_plan, HP|intros ?]. apply errs_bind; [apply M; intros; apply e_graph, HP|intros ?]. apply errs_bind; [apply M; intros; apply e_aug, HP|intros ?].
  apply errs_bind; [apply S; intros; apply e_method, HP|intros ?]. apply errs_bind; [apply S; intros; apply e_eval, HP|intros ?].
  apply errs_bind; [|intros ?; apply errs_ok]. apply M. intros d E. apply e_search; [exact HP|]. intros m e Hm Hf Hn. right. right. exists d, m. split; [exact E|]. split; [apply optional_mapping_ok, Hm|auto].
Qed.
