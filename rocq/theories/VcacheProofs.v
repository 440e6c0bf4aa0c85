(* Proofs for C149 and C150. *)
From Coq Require Import String Ascii QArith Lia ZifyBool ZifyNat.
From Verif Require Import Prelude VcacheModel VcacheSpec.
Local Open Scope string_scope.
Local Open Scope Z_scope.
Local Open Scope list_scope.
Local Notation length := List.length.

Section Views.
Context {X Y M Spec : Type}.
Variable payload_fp : nat * list (Z * Z) -> string.
Variable views_fp : string * Spec * Z -> string.
Variable valid_spec : Spec -> bool.
Variable compute : nat * list (Z * Z) * option (list Q) -> X -> Spec -> Z -> result (list (string * M)).
Notation run := (graph_to_views X Y M Spec payload_fp views_fp valid_spec compute).
Notation hist := (history X Y M Spec payload_fp views_fp valid_spec compute).
Notation key_of := (call_key X Y Spec payload_fp views_fp).
Notation meta_of := (call_meta X Y Spec payload_fp views_fp).
Notation comp := (call_compute X Y M Spec compute).
Notation ent := (entry M Spec).
Notation st := (store M Spec).

Lemma identifies_ok g s : identifies payload_fp g s <-> graph_fp payload_fp g = s.
Proof.
  unfold graph_fp. split.
  - intros [g0 s0 E HN|g0 E|g0 e rest E EE HL].
    + rewrite E. cbn [str_fp]. destruct (String.eqb_spec s0 ""); [contradiction|reflexivity].
    + rewrite E. reflexivity.
    + assert (ES : str_fp (g_fp g0) = "") by (destruct E as [->| ->]; reflexivity). rewrite ES. cbn [String.eqb]. f_equal. f_equal. rewrite EE. rewrite firstn_app. destruct HL as [HL|(HL & ->)].
      * rewrite HL. rewrite Nat.sub_diag, firstn_O, app_nil_r, <- HL. apply firstn_all.
      * rewrite firstn_nil, app_nil_r. now apply firstn_all2.
  - intros <-. destruct (g_fp g) as [| |s0] eqn:E; cbn [str_fp].
    + cbn [String.eqb]. apply by_edges with (rest := skipn 1000 (g_edges g)); [now left|symmetry; apply firstn_skipn|]. rewrite firstn_length. destruct (Nat.le_gt_cases 1000 (length (g_edges g))); [left; lia|right]. split; [lia|]. apply skipn_all2. lia.
    + cbn [String.eqb Ascii.eqb Bool.eqb]. now apply by_none.
    + destruct (String.eqb_spec s0 "") as [->|HN].
      * apply by_edges with (rest := skipn 1000 (g_edges g)); [now right|symmetry; apply firstn_skipn|]. rewrite firstn_length. destruct (Nat.le_gt_cases 1000 (length (g_edges g))); [left; lia|right]. split; [lia|]. apply skipn_all2. lia.
      * now apply by_meta.
Qed.

(* entries that can be read were made by one of the calls *)
Definition made (s : st) (cs : list (call X Y Spec)) : Prop :=
  forall k m, e_man _ _ (s k) = Some m -> exists c v, In c cs /\ key_of c = k /\ comp c = Ok v /\ m = meta_of c /\ e_npz _ _ (s k) = Whole v.
Lemma steps_fresh ov npz v m n (e : ent) : e_man _ _ e = None -> let e' := run_steps _ _ (firstn n (save_steps M Spec ov npz v m)) e in
  forall m', e_man _ _ e' = Some m' -> m' = m /\ e_npz _ _ e' = Whole v.
Proof.
  intros E e' m'. unfold e', run_steps, save_steps. destruct ov, npz; cbn [app].
  all: destruct n as [|[|[|[|[|n]]]]]; cbn [firstn fold_left e_man e_npz]; try (rewrite E; discriminate); try discriminate.
  all: try (rewrite firstn_nil; cbn [fold_left e_man e_npz]); intros [= <-]; now split.
Qed.
Lemma steps_all ov npz v m (e : ent) : run_steps _ _ (save_steps M Spec ov npz v m) e = {| e_npz := Whole v; e_man := Some m |}.
Proof. unfold run_steps, save_steps. destruct ov, npz; reflexivity. Qed.
Lemma made_grow s cs c : made s cs -> made s (c :: cs).
Proof. intros H k m E. destruct (H k m E) as (c' & v & Hc & R). exists c', v. split; [now right|exact R]. Qed.
Lemma made_step s cs c killed : made s cs -> made (fst (run s c killed)) (c :: cs).
Proof.
  intros H. unfold graph_to_views. destruct (negb (valid_spec (c_spec _ _ _ c))); [now apply made_grow|]. destruct (c_cache _ _ _ c) eqn:EC; cbn [andb].
  - destruct (entry_exists _ _ (s (key_of c))) eqn:EE; [now apply made_grow|]. destruct (comp c) as [v|e] eqn:EV; [|now apply made_grow]. cbn [fst].
    assert (HN : e_man _ _ (s (key_of c)) = None) by (unfold entry_exists in EE; now destruct (e_man _ _ (s (key_of c)))).
    intros k m Ek. unfold put in Ek |- *. destruct (String.eqb_spec (key_of c) k) as [<-|HK].
    + set (fs := save_steps M Spec true (c_npz_first _ _ _ c) v (meta_of c)) in *.
      assert (HF : exists n, match killed with Some n => firstn n fs | None => fs end = firstn n fs) by (destruct killed as [n|]; [now exists n|exists (length fs); symmetry; apply firstn_all]).
      destruct HF as (n & HF). rewrite HF in Ek |- *. apply (steps_fresh _ _ _ _ _ _ HN) in Ek as (-> & E2). exists c, v. split; [now left|]. repeat split; assumption.
    + destruct (H k m Ek) as (c' & v' & Hc & R). exists c', v'. split; [now right|exact R].
  - destruct (comp c) as [v|e]; cbn [fst]; now apply made_grow.
Qed.
Notation coherent := (@one_input X Y Spec payload_fp).
Lemma step_answer s cs c : collision_free views_fp -> made s cs -> coherent (c :: cs) -> snd (run s c None) = snd (run s (uncached c) None).
Proof.
  intros HI HM HC. unfold graph_to_views. change (c_spec _ _ _ (uncached c)) with (c_spec _ _ _ c). destruct (negb (valid_spec (c_spec _ _ _ c))); [reflexivity|]. change (c_cache _ _ _ (uncached c)) with false. cbn [andb].
  change (call_compute X Y M Spec compute (uncached c)) with (comp c). destruct (c_cache _ _ _ c) eqn:EC; cbn [andb].
  - destruct (entry_exists _ _ (s (key_of c))) eqn:EE; cbn [snd].
    + unfold entry_exists in EE. destruct (e_man _ _ (s (key_of c))) as [m|] eqn:EM; [|discriminate]. destruct (HM _ _ EM) as (c' & v & Hc' & EK & EV & -> & EN).
      unfold load_entry. rewrite EM, EN.
      assert (E3 : (graph_fp payload_fp (n_graph _ _ (c_data _ _ _ c')), c_spec _ _ _ c', c_seed _ _ _ c') = (graph_fp payload_fp (n_graph _ _ (c_data _ _ _ c)), c_spec _ _ _ c, c_seed _ _ _ c)) by (apply HI; exact EK).
      injection E3 as EG ES ED.
      assert (SI : same_input (c_data _ _ _ c') (c_data _ _ _ c)) by (apply (HC c' c (graph_fp payload_fp (n_graph _ _ (c_data _ _ _ c)))); [now right|now left|now apply identifies_ok|now apply identifies_ok]).
      destruct SI as (S1 & S2 & S3 & S4). assert (EC2 : comp c = Ok v) by (rewrite <- EV; unfold call_compute; rewrite S1, S2, S3, S4, ES, ED; reflexivity). rewrite EC2. cbn [snd]. f_equal. f_equal. unfold call_meta. change (key_of (uncached c)) with (key_of c). change (c_data _ _ _ (uncached c)) with (c_data _ _ _ c). rewrite EK, EG, ES, ED. reflexivity.
    + destruct (comp c) as [v|e]; reflexivity.
  - destruct (comp c) as [v|e]; reflexivity.
Qed.
Lemma history_answers s cs0 cs : collision_free views_fp -> made s cs0 -> coherent (rev (map fst cs) ++ cs0) ->
  forall c r, In (c, r) (snd (hist s cs)) -> r = snd (run (fun _ => nothing M Spec) (uncached c) None).
Proof.
  intros HI. revert s cs0. induction cs as [|(c0, killed) cs IH]; intros s cs0 HM HC c r H; [destruct H|]. cbn [map fst rev] in HC. rewrite <- app_assoc in HC. cbn [app] in HC.
  assert (HC0 : coherent (c0 :: cs0)) by (intros a b f Ha Hb; apply HC; apply in_app_iff; now right).
  cbn [history] in H. pose proof (made_step s cs0 c0 killed HM) as HM'. destruct (run s c0 killed) as (s', res) eqn:ER. cbn [fst] in HM'. specialize (IH s' (c0 :: cs0) HM' HC c r). destruct (hist s' cs) as (s'', l) eqn:EH. cbn [snd] in *.
  destruct killed as [n|]; [exact (IH H)|]. destruct H as [[= <- <-]|H]; [|exact (IH H)].
  pose proof (step_answer s cs0 c0 HI HM HC0) as HA. rewrite ER in HA. cbn [snd] in HA. rewrite HA. unfold graph_to_views. change (c_cache _ _ _ (uncached c0)) with false. cbn [andb]. destruct (negb (valid_spec (c_spec _ _ _ (uncached c0)))); [reflexivity|]. destruct (comp (uncached c0)); reflexivity.
Qed.
Lemma coherent_perm cs cs' : (forall c, In c cs -> In c cs') -> coherent cs' -> coherent cs.
Proof. intros H HC a b f Ha Hb. apply HC; now apply H. Qed.
End Views.

(* ----- matrices ----- *)
Lemma split_semicolon (a b r r' : list ascii) : ~ In ";"%char a -> ~ In ";"%char b -> a ++ ";"%char :: r = b ++ ";"%char :: r' -> a = b /\ r = r'.
Proof.
  revert b. induction a as [|x a IH]; intros [|y b] Ha Hb E; cbn [app] in E.
  - injection E as ->. now split.
  - injection E as <- _. destruct Hb. now left.
  - injection E as -> _. destruct Ha. now left.
  - injection E as -> E. destruct (IH b) as (-> & ->); [intros H; apply Ha; now right|intros H; apply Hb; now right|exact E|]. now split.
Qed.
Lemma concat_inj (w : nat) (a b : list (list ascii)) : length a = length b -> (forall r, In r a -> length r = w) -> (forall r, In r b -> length r = w) -> concat a = concat b -> a = b.
Proof.
  revert b. induction a as [|x a IH]; intros [|y b] HL Ha Hb E; [reflexivity|discriminate|discriminate|]. cbn [concat] in E. apply app_inj_tail_iff || idtac.
  assert (HX : length x = length y) by (rewrite (Ha x), (Hb y); [reflexivity|now left|now left]).
  assert (E1 : x = y). { rewrite <- (firstn_all x), <- (firstn_all y), <- HX. pose proof (f_equal (firstn (length x)) E) as E0. rewrite !firstn_app in E0. rewrite Nat.sub_diag, firstn_O, app_nil_r, HX, Nat.sub_diag, firstn_O, app_nil_r in E0. rewrite HX. exact E0. }
  subst y. apply app_inv_head in E. f_equal. apply IH; [now injection HL|intros r Hr; apply Ha; now right|intros r Hr; apply Hb; now right|exact E].
Qed.
Lemma concat_length (w : nat) (a : list (list ascii)) : (forall r, In r a -> length r = w) -> length (concat a) = (length a * w)%nat.
Proof. induction a as [|x a IH]; intros H; [reflexivity|]. cbn [concat length]. rewrite app_length, IH; [rewrite (H x); [lia|now left]|intros r Hr; apply H; now right]. Qed.
Lemma nth_error_ext_l {A} (a b : list A) : length a = length b -> (forall i, (i < length a)%nat -> nth_error a i = nth_error b i) -> a = b.
Proof.
  revert b. induction a as [|x a IH]; intros [|y b] HL H; [reflexivity|discriminate|discriminate|]. pose proof (H 0%nat ltac:(cbn [length]; lia)) as H0. injection H0 as ->. f_equal. apply IH; [now injection HL|]. intros i Hi. apply (H (S i)). cbn [length]. lia.
Qed.
Lemma ends_eq {A} (max : nat) (a b : list A) : length a = length b -> (0 < max)%nat ->
  (firstn max a = firstn max b /\ skipn (length a - max) a = skipn (length b - max) b) <->
  forall i, (i < length a)%nat -> (i < max \/ length a - max <= i)%nat -> nth_error a i = nth_error b i.
Proof.
  assert (NF : forall (l : list A) n i, (i < n)%nat -> nth_error (firstn n l) i = nth_error l i).
  { induction l as [|x l IH]; intros [|n] [|i] Hi; try lia; try reflexivity. cbn [firstn nth_error]. apply IH. lia. }
  assert (NS : forall (l : list A) n i, nth_error (skipn n l) i = nth_error l (n + i)%nat).
  { induction l as [|x l IH]; intros n i; [rewrite skipn_nil; now destruct i, (n + 0)%nat, n|]. destruct n as [|n]; [reflexivity|]. cbn [skipn Nat.add nth_error]. apply IH. }
  intros HL HP. split.
  - intros (H1 & H2) i Hi [H|H].
    + rewrite <- (NF a max i H), <- (NF b max i H). now rewrite H1.
    + replace i with (length a - max + (i - (length a - max)))%nat by lia. rewrite <- !NS. rewrite H2, HL. reflexivity.
  - intros H. split.
    + apply nth_error_ext_l; [rewrite !firstn_length; lia|]. intros i Hi. rewrite firstn_length in Hi. rewrite !NF by lia. apply H; lia.
    + apply nth_error_ext_l; [rewrite !skipn_length; lia|]. intros i Hi. rewrite skipn_length in Hi. rewrite !NS, <- HL. apply H; lia.
Qed.
Lemma In_firstn {A} n (l : list A) x : In x (firstn n l) -> In x l.
Proof. intros H. rewrite <- (firstn_skipn n l). apply in_app_iff. now left. Qed.
Lemma In_skipn {A} n (l : list A) x : In x (skipn n l) -> In x l.
Proof. intros H. rewrite <- (firstn_skipn n l). apply in_app_iff. now right. Qed.
Lemma digest_iff rows_of width_of max a b : (0 < max)%nat -> laid_out rows_of width_of a -> laid_out rows_of width_of b ->
  digest_bytes max a = digest_bytes max b <-> agree_at_ends max a b.
Proof.
  intros HP (A1 & A2 & A3 & A4) (B1 & B2 & B3 & B4). unfold digest_bytes, agree_at_ends, bytes_of.
  assert (HM : forall r r', (text "shape=" ++ text (a_shape a) ++ text ";dtype=" ++ text (a_dtype a) ++ text ";") ++ r = (text "shape=" ++ text (a_shape b) ++ text ";dtype=" ++ text (a_dtype b) ++ text ";") ++ r' <-> a_shape a = a_shape b /\ a_dtype a = a_dtype b /\ r = r').
  { intros r r'. split; [|intros (-> & -> & ->); reflexivity]. rewrite <- !app_assoc. intros E. apply app_inv_head in E. cbn [text list_ascii_of_string app] in E. apply split_semicolon in E as (E1 & E); [|exact A3|exact B3].
    change (text "dtype=" ++ text (a_dtype a) ++ ";"%char :: r = text "dtype=" ++ text (a_dtype b) ++ ";"%char :: r') in E. apply app_inv_head in E. apply split_semicolon in E as (E2 & E); [|exact A4|exact B4].
    split; [|split; [|exact E]]; rewrite <- (string_of_list_ascii_of_string (a_shape a)), <- (string_of_list_ascii_of_string (a_shape b)) || idtac.
    - unfold text in E1. now rewrite E1.
    - rewrite <- (string_of_list_ascii_of_string (a_dtype a)), <- (string_of_list_ascii_of_string (a_dtype b)). unfold text in E2. now rewrite E2. }
  destruct (Nat.eqb_spec max 0) as [|_]; [lia|].
  split.
  - intros E. assert (ES : a_shape a = a_shape b /\ a_dtype a = a_dtype b) by (destruct (Nat.leb (length (concat (a_rows a))) max), (Nat.leb (length (concat (a_rows b))) max); apply HM in E; tauto).
    destruct ES as (E1 & E2). rewrite <- E1, <- E2 in B2. rewrite <- E1 in B1. assert (HL : length (a_rows a) = length (a_rows b)) by lia.
    pose proof (concat_length _ _ A2) as LA. pose proof (concat_length _ _ B2) as LB. rewrite <- HL in LB. rewrite LB, <- LA in E. split; [exact E1|]. split; [exact E2|].
    destruct (Nat.leb_spec (length (concat (a_rows a))) max) as [HS|HS].
    + split; [|lia]. intros _. apply HM in E as (_ & _ & E). eapply concat_inj; eassumption.
    + split; [lia|]. intros _. apply HM in E as (_ & _ & E).
      pose proof (f_equal (firstn (length (concat (firstn max (a_rows a))))) E) as EF. rewrite !firstn_app, firstn_all, Nat.sub_diag, firstn_O, app_nil_r in EF.
      assert (LF : length (concat (firstn max (a_rows a))) = length (concat (firstn max (a_rows b)))).
      { rewrite (concat_length (width_of (a_shape a) (a_dtype a))) by (intros r Hr; apply A2; now apply In_firstn in Hr). rewrite (concat_length (width_of (a_shape a) (a_dtype a))) by (intros r Hr; apply B2; now apply In_firstn in Hr). rewrite !firstn_length. lia. }
      rewrite LF, firstn_all, Nat.sub_diag, firstn_O, app_nil_r in EF. rewrite EF in E. apply app_inv_head in E.
      apply (proj1 (ends_eq max (a_rows a) (a_rows b) HL HP)). split.
      * apply (concat_inj (width_of (a_shape a) (a_dtype a))); [rewrite !firstn_length; lia|intros r Hr; apply A2; now apply In_firstn in Hr|intros r Hr; apply B2; now apply In_firstn in Hr|exact EF].
      * apply (concat_inj (width_of (a_shape a) (a_dtype a))); [rewrite !skipn_length; lia|intros r Hr; apply A2; now apply In_skipn in Hr|intros r Hr; apply B2; now apply In_skipn in Hr|exact E].
  - intros (E1 & E2 & H1 & H2). rewrite <- E1, <- E2 in B2. rewrite <- E1 in B1. assert (HL : length (a_rows a) = length (a_rows b)) by lia.
    pose proof (concat_length _ _ A2) as LA. pose proof (concat_length _ _ B2) as LB. rewrite <- HL in LB. rewrite LB, <- LA.
    destruct (Nat.leb_spec (length (concat (a_rows a))) max) as [HS|HS]; apply HM; (split; [exact E1|]; split; [exact E2|]).
    + now rewrite (H1 HS).
    + apply (proj2 (ends_eq max (a_rows a) (a_rows b) HL HP)) in H2 as (-> & ->); [|exact HS]. reflexivity.
Qed.
