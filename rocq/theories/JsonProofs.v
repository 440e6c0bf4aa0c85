(* Proofs about the JSON encoder. *)
From Coq Require Import String Ascii ZifyBool ZifyNat Sorted DecimalString.
From Verif Require Import Prelude ListFacts DecString JsonModel JsonSpec.
Local Open Scope Z_scope.
Local Open Scope list_scope.

Section Ind.
Context {F : Type}.
Variable P : json F -> Prop.
Hypothesis Hnull : P JNull. Hypothesis Hbool : forall b, P (JBool b). Hypothesis Hint : forall z, P (JInt z).
Hypothesis Hfloat : forall f, P (JFloat f). Hypothesis Hstr : forall s, P (JStr s).
Hypothesis Hlist : forall l, Forall P l -> P (JList l).
Hypothesis Hdict : forall d, Forall (fun e => P (snd e)) d -> P (JDict d).
Fixpoint json_ind' (v : json F) : P v :=
  match v with
  | JNull => Hnull | JBool b => Hbool b | JInt z => Hint z | JFloat f => Hfloat f | JStr s => Hstr s
  | JList l => Hlist l ((fix go (l : list (json F)) : Forall P l :=
      match l with [] => Forall_nil _ | x :: r => Forall_cons _ (json_ind' x) (go r) end) l)
  | JDict d => Hdict d ((fix go (d : list (text * json F)) : Forall (fun e => P (snd e)) d :=
      match d with [] => Forall_nil _ | e :: r => Forall_cons _ (json_ind' (snd e)) (go r) end) d)
  end.
End Ind.

(* ---------------------------------------------------------------- strings *)
Lemma hex_digit_inj a b : 0 <= a < 16 -> 0 <= b < 16 -> hex_digit a = hex_digit b -> a = b.
Proof. unfold hex_digit. intros Ha Hb. destruct (Z.ltb_spec a 10), (Z.ltb_spec b 10); lia. Qed.
Lemma hex4_inj a b r s : 0 <= a < 65536 -> 0 <= b < 65536 -> hex4 a ++ r = hex4 b ++ s -> a = b /\ r = s.
Proof.
  intros Ha Hb H. unfold hex4 in H. cbn [app] in H. injection H as H1 H2 H3 H4 H5. split; [|exact H5].
  assert (M : forall x, 0 <= x mod 16 < 16) by (intros x; apply Z.mod_pos_bound; lia).
  apply hex_digit_inj in H1, H2, H3, H4; try apply M. clear H5 M.
  Z.div_mod_to_equations. lia.
Qed.
Lemma escape_unit_inj ascii a b r s : 0 <= a -> 0 <= b -> (ascii = true -> a < 65536 /\ b < 65536) ->
  escape_unit ascii a ++ r = escape_unit ascii b ++ s -> a = b /\ r = s.
Proof.
  intros Ha Hb Hc. unfold escape_unit.
  assert (X : forall c, 0 <= c -> (ascii = true -> c < 65536) -> (32 <=? c) && ((c <=? 126) || negb ascii) = false -> c < 65536).
  { intros c H0 H1 H2. destruct ascii; [auto|]. cbn in H2. lia. }
  repeat match goal with |- context [?x =? ?y] => destruct (Z.eqb_spec x y) as [?E|?E]; [try subst|] end;
  cbn [app]; intros H; try (injection H as H; try discriminate; try congruence; split; congruence).
  all: try (destruct ((32 <=? a) && ((a <=? 126) || negb ascii)) eqn:Ea; cbn [app] in H; injection H as H; try discriminate; congruence).
  all: try (destruct ((32 <=? b) && ((b <=? 126) || negb ascii)) eqn:Eb; cbn [app] in H; injection H as H; try discriminate; congruence).
  destruct ((32 <=? a) && ((a <=? 126) || negb ascii)) eqn:Ea, ((32 <=? b) && ((b <=? 126) || negb ascii)) eqn:Eb; cbn [app] in H.
  - injection H as -> ->. auto.
  - injection H as H _. congruence.
  - injection H as H _. congruence.
  - pose proof (f_equal (skipn 2) H : hex4 a ++ r = hex4 b ++ s) as H'. clear H. apply hex4_inj in H'; [exact H'| |]; (split; [assumption|apply X; auto; intros E'; apply Hc, E']).
Qed.
Lemma escape_unit_first ascii a : exists c r, escape_unit ascii a = c :: r /\ c <> 34.
Proof.
  unfold escape_unit.
  repeat match goal with |- context [a =? ?y] => destruct (Z.eqb_spec a y); [eexists; eexists; split; [reflexivity|discriminate]|] end.
  destruct (_ && _); [exists a, []; auto|eexists; eexists; split; [reflexivity|discriminate]].
Qed.
Lemma units_inj ascii a : forall b r s, (forall c, In c a -> 0 <= c /\ (ascii = true -> c < 65536)) -> (forall c, In c b -> 0 <= c /\ (ascii = true -> c < 65536)) ->
  flat_map (escape_unit ascii) a ++ 34 :: r = flat_map (escape_unit ascii) b ++ 34 :: s -> a = b /\ r = s.
Proof.
  induction a as [|x a IH]; intros [|y b] r s Ha Hb H; cbn [flat_map app] in H.
  - injection H as ->. auto.
  - destruct (escape_unit_first ascii y) as (c & t & E & Hc). rewrite E in H. cbn in H. injection H as H _. congruence.
  - destruct (escape_unit_first ascii x) as (c & t & E & Hc). rewrite E in H. cbn in H. injection H as H _. congruence.
  - rewrite <- !app_assoc in H. apply escape_unit_inj in H; [|apply Ha; left; reflexivity|apply Hb; left; reflexivity|].
    + destruct H as [-> H]. apply IH in H; [|intros; apply Ha; right; assumption|intros; apply Hb; right; assumption]. destruct H as [-> ->]. auto.
    + intros Et. split; [apply Ha|apply Hb]; auto; left; reflexivity.
Qed.

Lemma cons_eq {A} (x y : A) l m : x :: l = y :: m -> x = y /\ l = m.
Proof. intros H. inversion H. auto. Qed.
(* UTF-16 *)
Definition units (c : Z) : list Z := if 65536 <=? c then [55296 + (c - 65536) / 1024; 56320 + (c - 65536) mod 1024] else [c].
Lemma escape_units s : flat_map (escape true) s = flat_map (escape_unit true) (flat_map units s).
Proof.
  induction s as [|c s IH]; [reflexivity|]. cbn [flat_map]. rewrite flat_map_app, IH. f_equal. unfold escape, units. cbn [andb].
  destruct (65536 <=? c); cbn [flat_map]; rewrite app_nil_r; reflexivity.
Qed.
Lemma escape_plain s : flat_map (escape false) s = flat_map (escape_unit false) s.
Proof. reflexivity. Qed.
Lemma pair_range c : 65536 <= c < 1114112 -> high (55296 + (c - 65536) / 1024) /\ low (56320 + (c - 65536) mod 1024).
Proof. unfold high, low. intros H. Z.div_mod_to_equations. lia. Qed.
Lemma utf16_inj a : forall b, code_points a -> code_points b -> unpaired a -> unpaired b -> flat_map units a = flat_map units b -> a = b.
Proof.
  assert (G : forall c l, code_points (c :: l) -> 0 <= c < 1114112 /\ code_points l) by (intros c l H; split; [apply H; left; reflexivity|intros d Hd; apply H; right; exact Hd]).
  assert (U : forall c l, unpaired (c :: l) -> unpaired l) by (intros c [|d l] H; [exact I|apply H]).
  (* a text that begins with a high unit taken from a small code point does not continue with a low unit *)
  assert (N : forall c d l t, code_points l -> unpaired (c :: l) -> c < 65536 -> high c -> flat_map units l = d :: t -> low d -> False).
  { intros c d [|e l] t Hl Hu Hc Hh E Hd; [discriminate|]. destruct (G _ _ Hl) as [He _]. cbn [flat_map] in E. unfold units in E.
    destruct (Z.leb_spec 65536 e) as [Hb|Hb]; cbn [app] in E; apply cons_eq in E; destruct E as [E _].
    - destruct (pair_range e) as [Hp _]; [lia|]. rewrite E in Hp. unfold high, low in *. lia.
    - subst e. destruct Hu as [Hu _]. auto. }
  induction a as [|x a IH]; intros [|y b] Ha Hb Ua Ub H; [reflexivity| | |].
  - cbn [flat_map] in H. unfold units in H. destruct (65536 <=? y); discriminate.
  - cbn [flat_map] in H. unfold units in H. destruct (65536 <=? x); discriminate.
  - destruct (G _ _ Ha) as [Hx Ha'], (G _ _ Hb) as [Hy Hb']. pose proof (U _ _ Ua) as Ua'. pose proof (U _ _ Ub) as Ub'.
    cbn [flat_map] in H. unfold units at 1 3 in H. destruct (Z.leb_spec 65536 x) as [Bx|Bx], (Z.leb_spec 65536 y) as [By|By]; cbn [app] in H.
    + apply cons_eq in H. destruct H as [H1 H]. apply cons_eq in H. destruct H as [H2 H]. f_equal; [Z.div_mod_to_equations; lia|]. apply IH; assumption.
    + apply cons_eq in H. destruct H as [H1 H]. destruct (pair_range x) as [Px1 Px2]; [lia|]. exfalso. eapply (N y); [exact Hb'|exact Ub|exact By|rewrite <- H1; exact Px1|symmetry; exact H|exact Px2].
    + apply cons_eq in H. destruct H as [H1 H]. destruct (pair_range y) as [Px1 Px2]; [lia|]. exfalso. eapply (N x); [exact Ha'|exact Ua|exact Bx|rewrite H1; exact Px1|exact H|exact Px2].
    + injection H as -> H. f_equal. apply IH; assumption.
Qed.
Definition fine (ascii : bool) (s : text) : Prop := code_points s /\ (ascii = true -> unpaired s).
Lemma quote_inj ascii a b r s : fine ascii a -> fine ascii b -> quote ascii a ++ r = quote ascii b ++ s -> a = b /\ r = s.
Proof.
  intros [Ca Ua] [Cb Ub] H. unfold quote in H. cbn [app] in H. injection H as H. rewrite <- !app_assoc in H. cbn [app] in H. destruct ascii.
  - rewrite !escape_units in H. apply units_inj in H.
    + destruct H as [H ->]. split; [|reflexivity]. apply utf16_inj; auto.
    + intros c Hc. apply in_flat_map in Hc. destruct Hc as (d & Hd & Hc). specialize (Ca d Hd). unfold units in Hc.
      destruct (Z.leb_spec 65536 d); cbn [In] in Hc; [|intuition lia].
      destruct (pair_range d) as [P1 P2]; [lia|]. unfold high, low in *. destruct Hc as [<-|[<-|[]]]; split; try lia.
    + intros c Hc. apply in_flat_map in Hc. destruct Hc as (d & Hd & Hc). specialize (Cb d Hd). unfold units in Hc.
      destruct (Z.leb_spec 65536 d); cbn [In] in Hc; [|intuition lia].
      destruct (pair_range d) as [P1 P2]; [lia|]. unfold high, low in *. destruct Hc as [<-|[<-|[]]]; split; try lia.
  - rewrite !escape_plain in H. apply units_inj in H; [exact H| |]; intros c Hc; (split; [|discriminate]); [apply Ca, Hc|apply Cb, Hc].
Qed.

(* ---------------------------------------------------------------- tokens *)
Definition ended (r : text) : Prop := r = [] \/ exists c t, r = c :: t /\ (c = 44 \/ c = 93 \/ c = 125).
Lemma munch x : forall y r s, Forall number_char x -> Forall number_char y -> ended r -> ended s -> x ++ r = y ++ s -> x = y /\ r = s.
Proof.
  assert (N : forall c t r, number_char c -> ended r -> r = c :: t -> False).
  { intros c t r Hc [->|(d & u & -> & Hd)] E; [discriminate|]. injection E as -> _. unfold number_char in Hc. intuition. }
  induction x as [|a x IH]; intros [|b y] r s Hx Hy Hr Hs H; cbn [app] in H.
  - auto.
  - exfalso. inversion Hy; subst. eapply N; [|exact Hr|reflexivity]; assumption.
  - exfalso. inversion Hx; subst. eapply N; [|exact Hs|reflexivity]; assumption.
  - injection H as -> H. inversion Hx; inversion Hy; subst. destruct (IH y r s) as [-> ->]; auto.
Qed.
Lemma codes_inj a b : codes a = codes b -> a = b.
Proof.
  unfold codes. intros H. assert (E : list_ascii_of_string a = list_ascii_of_string b).
  { revert H. generalize (list_ascii_of_string a) (list_ascii_of_string b). intros l. induction l as [|x l IH]; intros [|y m] H; try discriminate; [reflexivity|].
    injection H as H1 H2. f_equal; [|apply IH, H2]. rewrite <- (ascii_nat_embedding x), <- (ascii_nat_embedding y). f_equal. lia. }
  rewrite <- (string_of_list_ascii_of_string a), <- (string_of_list_ascii_of_string b), E. reflexivity.
Qed.
Lemma codes_In s c : In c (codes s) -> exists a, c = Z.of_nat (nat_of_ascii a) /\ (0 < count_char a s)%nat.
Proof.
  induction s as [|x s IH]; cbn; [intros []|]. intros [<-|H].
  - exists x. split; [reflexivity|]. rewrite Ascii.eqb_refl. lia.
  - destruct (IH H) as (a & -> & Ha). exists a. split; [reflexivity|lia].
Qed.
Lemma dec_chars z c : In c (codes (dec z)) -> c = 45 \/ 48 <= c <= 57.
Proof.
  intros H. apply codes_In in H. destruct H as (a & -> & Ha).
  destruct (is_digit a) eqn:Ed.
  - right. destruct a as [[] [] [] [] [] [] [] []]; cbn in Ed; try discriminate; cbn; lia.
  - destruct (Ascii.eqb_spec a "-"%char) as [->|Hn]; [left; reflexivity|]. rewrite (dec_no_char a z Ed Hn) in Ha. lia.
Qed.
Lemma dec_first z : exists c r, codes (dec z) = c :: r /\ c <> 110 /\ c <> 116 /\ c <> 102.
Proof.
  pose proof (dec_chars z) as H. destruct (codes (dec z)) as [|c r] eqn:E.
  - exfalso. change [] with (codes ""%string) in E. apply codes_inj in E. unfold dec, NilZero.string_of_int, NilZero.string_of_uint in E.
    destruct (Z.to_int z) as [d|d]; [|discriminate]. destruct d; discriminate.
  - exists c, r. split; [reflexivity|]. specialize (H c (or_introl eq_refl)). lia.
Qed.
Lemma dec_number z : Forall number_char (codes (dec z)).
Proof. apply Forall_forall. intros c Hc. apply dec_chars in Hc. unfold number_char. lia. Qed.

(* ---------------------------------------------------------------- lists of items *)
(* an item is never empty, does not begin with a closing bracket, and is cut off by a comma or a closing bracket *)
Definition opens (x : text) : Prop := exists c t, x = c :: t /\ c <> 93 /\ c <> 125.
Definition cuts (x y : text) : Prop := forall r s, ended r -> ended s -> x ++ r = y ++ s -> x = y /\ r = s.
Lemma commas_cons x y l : commas (x :: y :: l) = x ++ 44 :: commas (y :: l).
Proof. reflexivity. Qed.
Lemma commas_cut k : (k = 93 \/ k = 125) -> forall xs ys r s, Forall opens xs -> Forall opens ys -> (forall x y, In x xs -> In y ys -> cuts x y) ->
  commas xs ++ k :: r = commas ys ++ k :: s -> xs = ys /\ r = s.
Proof.
  intros Hk. assert (Ek : forall t, ended (k :: t)) by (intros t; right; exists k, t; split; [reflexivity|lia]).
  assert (Ec : forall t, ended (44 :: t)) by (intros t; right; exists 44, t; split; [reflexivity|lia]).
  assert (O0 : forall x l t u, opens x -> commas (x :: l) ++ t = k :: u -> False).
  { intros x l t u (c & w & -> & H1 & H2) E. destruct l; cbn in E; injection E as E _; lia. }
  induction xs as [|x xs IH]; intros [|y ys] r s Ox Oy C H.
  - cbn in H. injection H as ->. auto.
  - exfalso. inversion Oy; subst. eapply O0; [eassumption|]. symmetry. exact H.
  - exfalso. inversion Ox; subst. eapply O0; [eassumption|]. exact H.
  - assert (Cxy : cuts x y) by (apply C; left; reflexivity). inversion Ox as [|? ? O1 O2]; inversion Oy as [|? ? P1 P2]; subst.
    assert (IH' : commas xs ++ k :: r = commas ys ++ k :: s -> xs = ys /\ r = s) by (apply IH; auto; intros; apply C; right; assumption).
    destruct xs as [|x2 xs], ys as [|y2 ys].
    + cbn [commas] in H. apply Cxy in H; auto. destruct H as [-> H]. injection H as ->. auto.
    + rewrite commas_cons, <- app_assoc in H. cbn [commas app] in H. apply Cxy in H; auto. destruct H as [_ H]. injection H as H _. lia.
    + rewrite commas_cons, <- app_assoc in H. cbn [commas app] in H. apply Cxy in H; auto. destruct H as [_ H]. injection H as H _. lia.
    + rewrite !commas_cons, <- !app_assoc in H. cbn [app] in H. apply Cxy in H; auto. destruct H as [-> H]. injection H as H.
      destruct (IH' H) as [E ->]. rewrite E. auto.
Qed.

(* ---------------------------------------------------------------- sorting *)
Lemma text_leb_refl a : text_leb a a = true.
Proof. induction a as [|x a IH]; cbn; [reflexivity|]. rewrite Z.ltb_irrefl. exact IH. Qed.
Lemma text_leb_total a : forall b, text_leb a b = true \/ text_leb b a = true.
Proof. induction a as [|x a IH]; intros [|y b]; cbn; auto. destruct (Z.ltb_spec x y), (Z.ltb_spec y x); auto; try lia. Qed.
Lemma text_leb_antisym a : forall b, text_leb a b = true -> text_leb b a = true -> a = b.
Proof.
  induction a as [|x a IH]; intros [|y b]; cbn; auto; try discriminate.
  destruct (Z.ltb_spec x y), (Z.ltb_spec y x); try discriminate; try lia. intros H1 H2. f_equal; [lia|apply IH; assumption].
Qed.
Lemma text_leb_trans a : forall b c, text_leb a b = true -> text_leb b c = true -> text_leb a c = true.
Proof.
  induction a as [|x a IH]; intros [|y b] [|z c]; cbn; auto; try discriminate.
  destruct (Z.ltb_spec x y), (Z.ltb_spec y x), (Z.ltb_spec y z), (Z.ltb_spec z y), (Z.ltb_spec x z), (Z.ltb_spec z x); try discriminate; try lia; auto. apply IH.
Qed.
Section Sort.
Context {A : Type}.
Definition le_key (a b : text * A) : Prop := text_leb (fst a) (fst b) = true.
Lemma insert_key_perm (e : text * A) l : Permutation (insert_key e l) (e :: l).
Proof. induction l as [|f l IH]; cbn; [reflexivity|]. destruct (text_leb _ _); [reflexivity|]. rewrite IH. apply perm_swap. Qed.
Lemma sort_keys_perm (l : list (text * A)) : Permutation (sort_keys l) l.
Proof. induction l as [|e l IH]; cbn; [reflexivity|]. rewrite insert_key_perm, IH. reflexivity. Qed.
Lemma insert_key_sorted (e : text * A) l : StronglySorted le_key l -> StronglySorted le_key (insert_key e l).
Proof.
  induction l as [|f l IH]; intros H; cbn; [constructor; [constructor|constructor]|]. inversion H as [|? ? H1 H2]; subst.
  destruct (text_leb (fst e) (fst f)) eqn:E.
  - constructor; [exact H|]. constructor; [exact E|]. rewrite Forall_forall in *. intros x Hx. eapply text_leb_trans; [exact E|apply H2, Hx].
  - constructor; [apply IH, H1|]. rewrite Forall_forall in *. intros x Hx. apply (Permutation_in _ (insert_key_perm e l)) in Hx. destruct Hx as [<-|Hx]; [|apply H2, Hx].
    destruct (text_leb_total (fst e) (fst f)); [congruence|assumption].
Qed.
Lemma sort_keys_sorted (l : list (text * A)) : StronglySorted le_key (sort_keys l).
Proof. induction l as [|e l IH]; cbn; [constructor|apply insert_key_sorted, IH]. Qed.
Lemma sorted_unique (l : list (text * A)) : forall m, StronglySorted le_key l -> StronglySorted le_key m -> NoDup (map fst l) -> Permutation l m -> l = m.
Proof.
  induction l as [|a l IH]; intros [|b m] Hl Hm Hn Hp; [reflexivity|apply Permutation_nil in Hp; discriminate|symmetry in Hp; apply Permutation_nil in Hp; discriminate|].
  assert (a = b).
  { inversion Hl as [|? ? _ La]; inversion Hm as [|? ? _ Mb]; subst. rewrite Forall_forall in La, Mb.
    assert (Ib : In b (a :: l)) by (apply (Permutation_in _ (Permutation_sym Hp)); left; reflexivity). destruct Ib as [|Ib]; [assumption|].
    assert (Ia : In a (b :: m)) by (apply (Permutation_in _ Hp); left; reflexivity). destruct Ia as [|Ia]; [congruence|].
    exfalso. inversion Hn as [|? ? Ha _]; subst. apply Ha. replace (fst a) with (fst b); [apply in_map, Ib|]. apply text_leb_antisym; [apply (Mb a Ia)|apply (La b Ib)]. }
  subst b. f_equal. inversion Hl; inversion Hm; inversion Hn; subst. apply IH; auto. apply (Permutation_cons_inv Hp).
Qed.
Lemma sort_keys_unique (l m : list (text * A)) : NoDup (map fst l) -> Permutation l m -> sort_keys l = sort_keys m.
Proof.
  intros Hn Hp. apply sorted_unique; try apply sort_keys_sorted.
  - apply (Permutation_NoDup (l := map fst l)); [apply Permutation_map, Permutation_sym, sort_keys_perm|exact Hn].
  - rewrite !sort_keys_perm. exact Hp.
Qed.
End Sort.
Lemma insert_key_map {A B} (g : A -> B) (e : text * A) l :
  insert_key (fst e, g (snd e)) (map (fun f => (fst f, g (snd f))) l) = map (fun f => (fst f, g (snd f))) (insert_key e l).
Proof. induction l as [|f l IH]; cbn; [reflexivity|]. destruct (text_leb (fst e) (fst f)); cbn; [reflexivity|]. rewrite IH. reflexivity. Qed.
Lemma sort_keys_map {A B} (g : A -> B) l : sort_keys (map (fun f => (fst f, g (snd f))) l) = map (fun f => (fst f, g (snd f))) (sort_keys l).
Proof. induction l as [|e l IH]; cbn; [reflexivity|]. rewrite IH. apply insert_key_map. Qed.
Lemma Forall2_perm {A B} (R : A -> B -> Prop) l l' : Permutation l l' -> forall m, Forall2 R l m -> exists m', Permutation m m' /\ Forall2 R l' m'.
Proof.
  induction 1 as [|x l l' _ IH|x y l|l1 l2 l3 _ IH1 _ IH2]; intros m H.
  - inversion H; subst. exists []. auto.
  - inversion H as [|? b ? m0 Hx Hl]; subst. destruct (IH m0 Hl) as (m' & P1 & P2). exists (b :: m'). auto.
  - inversion H as [|? b ? m0 Hy Hl]; subst. inversion Hl as [|? b' ? m1 Hx Hl']; subst. exists (b' :: b :: m1). split; [apply perm_swap|auto].
  - destruct (IH1 m H) as (m1 & P1 & Q1). destruct (IH2 m1 Q1) as (m2 & P2 & Q2). exists m2. split; [rewrite P1; exact P2|exact Q2].
Qed.

(* ---------------------------------------------------------------- the encoder *)
Section Encoder.
Context {F : Type}.
Variable show_float : F -> text.
Hypothesis HF : float_repr show_float.
Variable ascii : bool.
Notation enc := (encode show_float ascii).
Definition item (e : text * text) : text := quote ascii (fst e) ++ 58 :: snd e.

Definition scalar (v : json F) : Prop := match v with JNull | JBool _ | JInt _ | JFloat _ => True | _ => False end.
Ltac concrete := repeat constructor; unfold number_char; vm_compute; repeat split; discriminate.
Lemma scalar_chars v : scalar v -> Forall number_char (enc v).
Proof.
  destruct v as [|[]|z|f|s|l|d]; cbn [scalar encode]; intros H; try destruct H.
  - change (codes "null") with [110; 117; 108; 108]. repeat (apply Forall_cons; [unfold number_char; lia|]). constructor.
  - change (codes "true") with [116; 114; 117; 101]. repeat (apply Forall_cons; [unfold number_char; lia|]). constructor.
  - change (codes "false") with [102; 97; 108; 115; 101]. repeat (apply Forall_cons; [unfold number_char; lia|]). constructor.
  - apply dec_number.
  - apply HF.
Qed.
Lemma scalar_inj a b : scalar a -> scalar b -> enc a = enc b -> a = b.
Proof.
  destruct HF as (F1 & F2 & F3 & F4).
  assert (Dn : forall z t, codes (dec z) = 110 :: t -> False) by (intros z t H; destruct (dec_first z) as (c & r & E & N); rewrite H in E; injection E as <- _; lia).
  assert (Dt : forall z t, codes (dec z) = 116 :: t -> False) by (intros z t H; destruct (dec_first z) as (c & r & E & N); rewrite H in E; injection E as <- _; lia).
  assert (Df : forall z t, codes (dec z) = 102 :: t -> False) by (intros z t H; destruct (dec_first z) as (c & r & E & N); rewrite H in E; injection E as <- _; lia).
  assert (Gn : forall z t, show_float z = 110 :: t -> False) by (intros z t H; destruct (F4 z) as (c & r & E & N); rewrite H in E; injection E as <- _; lia).
  assert (Gt : forall z t, show_float z = 116 :: t -> False) by (intros z t H; destruct (F4 z) as (c & r & E & N); rewrite H in E; injection E as <- _; lia).
  assert (Gf : forall z t, show_float z = 102 :: t -> False) by (intros z t H; destruct (F4 z) as (c & r & E & N); rewrite H in E; injection E as <- _; lia).
  change (codes "null") with [110; 117; 108; 108] in *.
  destruct a as [|[]|z|f|s|l|d], b as [|[]|z'|f'|s'|l'|d']; cbn [scalar encode]; intros Ha Hb H; try destruct Ha; try destruct Hb; try reflexivity; try discriminate;
    try (exfalso; first [eapply Dn; first [exact H|symmetry; exact H] | eapply Dt; first [exact H|symmetry; exact H] | eapply Df; first [exact H|symmetry; exact H]
      | eapply Gn; first [exact H|symmetry; exact H] | eapply Gt; first [exact H|symmetry; exact H] | eapply Gf; first [exact H|symmetry; exact H]]; fail).
  - apply codes_inj, dec_inj in H. congruence.
  - exfalso. exact (F3 _ _ (eq_sym H)).
  - exfalso. exact (F3 _ _ H).
  - apply F1 in H. congruence.
Qed.
Lemma enc_opens v : opens (enc v).
Proof.
  destruct (v) as [|[]|z|f|s|l|d] eqn:E; try (eexists; eexists; split; [reflexivity|split; vm_compute; discriminate]).
  - destruct (dec_first z) as (c & r & Ez & _). cbn [encode]. exists c, r. split; [exact Ez|]. assert (Hc : number_char c).
    { pose proof (dec_number z) as D. rewrite Ez in D. inversion D; assumption. } unfold number_char in Hc. lia.
  - destruct HF as (F1 & F2 & F3 & F4). destruct (F4 f) as (c & r & Ez & _). cbn [encode]. exists c, r. split; [exact Ez|]. assert (Hc : number_char c).
    { pose proof (F2 f) as D. rewrite Ez in D. inversion D; assumption. } unfold number_char in Hc. lia.
Qed.
Definition good : json F -> Prop := proper (fine ascii).

Lemma enc_scalar_not v c t : scalar v -> c = 34 \/ c = 91 \/ c = 123 -> forall r s, enc v ++ r = c :: t ++ s -> False.
Proof.
  intros Hv Hc r s H. pose proof (scalar_chars v Hv) as N. destruct (enc_opens v) as (x & w & E & _). rewrite E in H, N. cbn [app] in H. injection H as -> _.
  inversion N as [|? ? Hx _]; subst. unfold number_char in Hx. lia.
Qed.

(* cutting and telling apart, together *)
Definition reads (a : json F) : Prop := good a -> forall b, good b -> forall r s, ended r -> ended s -> enc a ++ r = enc b ++ s -> enc a = enc b /\ r = s /\ same a b.
Lemma reads_cuts a b : reads a -> good a -> good b -> cuts (enc a) (enc b).
Proof. intros H Ha Hb r s Hr Hs E. destruct (H Ha b Hb r s Hr Hs E) as (A & B & _). auto. Qed.
Lemma reads_same a b : reads a -> good a -> good b -> enc a = enc b -> same a b.
Proof. intros H Ha Hb E. apply (H Ha b Hb [] []); [left; reflexivity|left; reflexivity|]. rewrite E. reflexivity. Qed.

Lemma scalar_reads a : scalar a -> reads a.
Proof.
  intros Sa _ b Hb r s Hr Hs H. assert (Sb : scalar b).
  { destruct b as [|bb|z|f|s'|l|d]; cbn; try exact I; exfalso; cbn [encode] in H; unfold quote in H; cbn [app] in H;
      (eapply (enc_scalar_not a); [exact Sa| |exact H]); auto. }
  destruct (munch _ _ _ _ (scalar_chars _ Sa) (scalar_chars _ Sb) Hr Hs H) as [E ->]. split; [exact E|]. split; [reflexivity|].
  apply (scalar_inj _ _ Sa Sb) in E. subst b. destruct a; try destruct Sa; constructor.
Qed.
Lemma same_refl (v : json F) : same v v.
Proof.
  induction v using json_ind'; try constructor.
  - induction H; constructor; assumption.
  - eapply same_dict; [reflexivity|]. induction H; constructor; auto.
Qed.
Lemma item_cuts e f : fine ascii (fst e) -> fine ascii (fst f) -> cuts (snd e) (snd f) -> cuts (item e) (item f).
Proof.
  intros He Hf C r s Hr Hs H. unfold item in H. rewrite <- !app_assoc in H. apply quote_inj in H; try assumption. destruct H as [E H]. cbn [app] in H. apply cons_eq in H. destruct H as [_ H].
  destruct (C r s Hr Hs H) as [E2 ->]. unfold item. rewrite E, E2. auto.
Qed.
Lemma item_inj e f : fine ascii (fst e) -> fine ascii (fst f) -> item e = item f -> e = f.
Proof.
  intros He Hf H. unfold item in H. apply quote_inj in H; try assumption. destruct H as [E H]. apply cons_eq in H. destruct H as [_ H]. destruct e, f. cbn in *. congruence.
Qed.
Lemma item_opens e : opens (item e).
Proof. unfold item, quote. eexists. eexists. split; [reflexivity|lia]. Qed.
Lemma enc_list l : enc (JList l) = 91 :: commas (map enc l) ++ [93].
Proof. reflexivity. Qed.
Lemma enc_dict d : enc (JDict d) = 123 :: commas (map (fun e => item (fst e, enc (snd e))) (sort_keys d)) ++ [125].
Proof. cbn [encode]. rewrite (sort_keys_map (fun v => enc v) d), map_map. reflexivity. Qed.
Lemma map_Forall2 {A B C} (f : A -> C) (g : B -> C) (R : A -> B -> Prop) l : forall m, map f l = map g m ->
  (forall x y, In x l -> In y m -> f x = g y -> R x y) -> Forall2 R l m.
Proof.
  induction l as [|x l IH]; intros [|y m] H HR; try discriminate; [constructor|]. apply cons_eq in H. destruct H as [H1 H2]. constructor; [apply HR; auto; left; reflexivity|].
  apply IH; [exact H2|]. intros; apply HR; auto; right; assumption.
Qed.

Lemma all_read a : reads a.
Proof.
  induction a using json_ind'; try (apply scalar_reads; exact I).
  - (* string *)
    intros Ha b Hb r r' Hr Hs E. inversion Ha as [| | | |? Ps | |]; subst. cbn [encode] in E.
    destruct b as [|bb|z|f|s'|l|d]; cbn [encode] in E.
    1,2,3,4: exfalso; unfold quote in E; cbn [app] in E; symmetry in E.
    + eapply (enc_scalar_not JNull 34); [exact I| |exact E]; auto.
    + eapply (enc_scalar_not (JBool bb) 34); [exact I| |exact E]; auto.
    + eapply (enc_scalar_not (JInt z) 34); [exact I| |exact E]; auto.
    + eapply (enc_scalar_not (JFloat f) 34); [exact I| |exact E]; auto.
    + inversion Hb as [| | | |? Ps' | |]; subst. destruct (quote_inj _ _ _ _ _ Ps Ps' E) as [-> ->]. split; [reflexivity|]. split; [reflexivity|constructor].
    + unfold quote in E. cbn [app] in E. discriminate.
    + unfold quote in E. cbn [app] in E. discriminate.
  - (* list *)
    intros Ha b Hb r s Hr Hs E. inversion Ha as [| | | | |? Pl|]; subst. rewrite enc_list in E.
    destruct b as [|bb|z|f|s'|m|d].
    1,2,3,4: exfalso; cbn [app] in E; symmetry in E.
    + eapply (enc_scalar_not JNull 91); [exact I| |exact E]; auto.
    + eapply (enc_scalar_not (JBool bb) 91); [exact I| |exact E]; auto.
    + eapply (enc_scalar_not (JInt z) 91); [exact I| |exact E]; auto.
    + eapply (enc_scalar_not (JFloat f) 91); [exact I| |exact E]; auto.
    + cbn [encode] in E. unfold quote in E. discriminate.
    + rewrite enc_list in E. cbn [app] in E. apply cons_eq in E. destruct E as [_ E]. rewrite <- !app_assoc in E. cbn [app] in E.
      inversion Hb as [| | | | |? Pm|]; subst. rewrite Forall_forall in *.
      apply commas_cut in E; [|left; reflexivity| | |].
      * destruct E as [E ->]. rewrite !enc_list, E. split; [reflexivity|]. split; [reflexivity|]. constructor. eapply map_Forall2; [exact E|].
        intros x y Hx Hy Exy. apply reads_same; auto. apply Pl, Hx. apply Pm, Hy.
      * apply Forall_forall. intros x Hx. apply in_map_iff in Hx. destruct Hx as (v & <- & _). apply enc_opens.
      * apply Forall_forall. intros x Hx. apply in_map_iff in Hx. destruct Hx as (v & <- & _). apply enc_opens.
      * intros x y Hx Hy. apply in_map_iff in Hx. destruct Hx as (v & <- & Hv). apply in_map_iff in Hy. destruct Hy as (w & <- & Hw).
        apply reads_cuts; auto. apply Pl, Hv. apply Pm, Hw.
    + rewrite enc_dict in E. discriminate.
  - (* dictionary *)
    intros Ha b Hb r s Hr Hs E. inversion Ha as [| | | | | |? Nd Pd]; subst. rewrite enc_dict in E.
    destruct b as [|bb|z|f|s'|m|e].
    1,2,3,4: exfalso; cbn [app] in E; symmetry in E.
    + eapply (enc_scalar_not JNull 123); [exact I| |exact E]; auto.
    + eapply (enc_scalar_not (JBool bb) 123); [exact I| |exact E]; auto.
    + eapply (enc_scalar_not (JInt z) 123); [exact I| |exact E]; auto.
    + eapply (enc_scalar_not (JFloat f) 123); [exact I| |exact E]; auto.
    + cbn [encode] in E. unfold quote in E. discriminate.
    + rewrite enc_list in E. discriminate.
    + rewrite enc_dict in E. cbn [app] in E. apply cons_eq in E. destruct E as [_ E]. rewrite <- !app_assoc in E. cbn [app] in E.
      inversion Hb as [| | | | | |? Ne Pe]; subst. rewrite Forall_forall in *.
      assert (Sd : forall x, In x (sort_keys d) -> In x d) by (intros x; apply Permutation_in, sort_keys_perm).
      assert (Se : forall x, In x (sort_keys e) -> In x e) by (intros x; apply Permutation_in, sort_keys_perm).
      apply commas_cut in E; [|right; reflexivity| | |].
      * destruct E as [E ->]. rewrite !enc_dict, E. split; [reflexivity|]. split; [reflexivity|].
        assert (R : Forall2 (fun x y => fst x = fst y /\ same (snd x) (snd y)) (sort_keys d) (sort_keys e)).
        { eapply map_Forall2; [exact E|]. intros x y Hx Hy Exy. apply item_inj in Exy; [|apply (Pd x), Sd, Hx|apply (Pe y), Se, Hy].
          injection Exy as E1 E2. split; [exact E1|]. apply reads_same; [apply (H x), Sd, Hx|apply (Pd x), Sd, Hx|apply (Pe y), Se, Hy|exact E2]. }
        destruct (Forall2_perm _ _ _ (sort_keys_perm d) _ R) as (e' & P1 & P2). eapply same_dict; [|exact P2]. rewrite <- P1. apply sort_keys_perm.
      * apply Forall_forall. intros x Hx. apply in_map_iff in Hx. destruct Hx as (v & <- & _). apply item_opens.
      * apply Forall_forall. intros x Hx. apply in_map_iff in Hx. destruct Hx as (v & <- & _). apply item_opens.
      * intros x y Hx Hy. apply in_map_iff in Hx. destruct Hx as (v & <- & Hv). apply in_map_iff in Hy. destruct Hy as (w & <- & Hw).
        apply item_cuts; cbn [fst snd]; [apply (Pd v), Sd, Hv|apply (Pe w), Se, Hw|]. apply reads_cuts; [apply (H v), Sd, Hv|apply (Pd v), Sd, Hv|apply (Pe w), Se, Hw].
Qed.
Lemma encode_same a b : good a -> good b -> enc a = enc b -> same a b.
Proof. intros Ha Hb. apply reads_same; auto. apply all_read. Qed.
Lemma same_encode a : good a -> forall b, same a b -> enc a = enc b.
Proof.
  induction a using json_ind'; intros Ha w Hs; inversion Hs; subst; try reflexivity.
  - inversion Ha as [| | | | |? Pl|]; subst. rewrite !enc_list. do 2 f_equal. f_equal. clear Ha Hs. rename H1 into L.
    induction L as [|x y l m Hxy L IH]; [reflexivity|]. inversion H; inversion Pl; subst. cbn [map]. f_equal; auto.
  - inversion Ha as [| | | | | |? Nd Pd]; subst. rewrite !enc_dict. do 2 f_equal. f_equal. clear Ha Hs. rename H1 into Pm. rename H2 into L.
    rewrite <- !(map_map (fun e => (fst e, enc (snd e))) item), <- !(sort_keys_map (fun v => enc v)).
    f_equal. assert (M : map (fun f => (fst f, enc (snd f))) d = map (fun f => (fst f, enc (snd f))) e).
    { clear Nd Pm. induction L as [|x y l m [K Hxy] L IH]; [reflexivity|]. inversion H; inversion Pd as [|? ? [_ ?] ?]; subst. cbn [map]. f_equal; [|auto].
      rewrite K. f_equal. auto. }
    rewrite M. apply sort_keys_unique; [|apply Permutation_map, Pm]. rewrite <- M, map_map. exact Nd.
Qed.
End Encoder.

(* ---------------------------------------------------------------- with ensure_ascii the output is printable ASCII *)
Definition printable (c : Z) : Prop := 32 <= c <= 126.
Lemma hex_printable d : 0 <= d < 16 -> printable (hex_digit d).
Proof. unfold printable, hex_digit. destruct (Z.ltb_spec d 10); lia. Qed.
Lemma escape_unit_printable c : 0 <= c -> Forall printable (escape_unit true c).
Proof.
  intros H. assert (M : forall x, printable (hex_digit (x mod 16))) by (intros x; apply hex_printable, Z.mod_pos_bound; lia).
  unfold escape_unit. repeat match goal with |- context [c =? ?y] => destruct (Z.eqb_spec c y); [repeat (apply Forall_cons; [unfold printable; lia|]); constructor|] end.
  destruct ((32 <=? c) && ((c <=? 126) || negb true)) eqn:E.
  - apply Forall_cons; [unfold printable; lia|constructor].
  - unfold hex4. apply Forall_cons; [unfold printable; lia|]. apply Forall_cons; [unfold printable; lia|]. repeat (apply Forall_cons; [apply M|]). constructor.
Qed.
Lemma quote_printable s : code_points s -> Forall printable (quote true s).
Proof.
  intros H. unfold quote. apply Forall_cons; [unfold printable; lia|]. apply Forall_app. split; [|apply Forall_cons; [unfold printable; lia|constructor]].
  apply Forall_forall. intros c Hc. apply in_flat_map in Hc. destruct Hc as (d & Hd & Hc). specialize (H d Hd). revert Hc. apply Forall_forall.
  unfold escape. cbn [andb]. destruct (Z.leb_spec 65536 d); [|apply escape_unit_printable; lia].
  apply Forall_app. split; apply escape_unit_printable; Z.div_mod_to_equations; lia.
Qed.
Lemma commas_Forall (P : Z -> Prop) l : P 44 -> Forall (Forall P) l -> Forall P (commas l).
Proof.
  intros H44. induction 1 as [|x l Hx Hl IH]; [constructor|]. destruct l as [|y l]; [exact Hx|]. rewrite commas_cons. apply Forall_app. split; [exact Hx|]. constructor; assumption.
Qed.
Lemma codes_printable_dec z : Forall printable (codes (dec z)).
Proof. apply Forall_forall. intros c Hc. apply dec_chars in Hc. unfold printable. lia. Qed.
Lemma encode_printable {F} (show_float : F -> text) (Hf : forall f, Forall printable (show_float f)) v :
  proper code_points v -> Forall printable (encode show_float true v).
Proof.
  induction v using json_ind'; intros Hp.
  - change (encode show_float true JNull) with [110; 117; 108; 108]. repeat (apply Forall_cons; [unfold printable; lia|]). constructor.
  - destruct b; [change (encode show_float true (JBool true)) with [116; 114; 117; 101]|change (encode show_float true (JBool false)) with [102; 97; 108; 115; 101]];
      repeat (apply Forall_cons; [unfold printable; lia|]); constructor.
  - apply codes_printable_dec.
  - apply Hf.
  - inversion Hp; subst. apply quote_printable. assumption.
  - inversion Hp as [| | | | |? Pl|]; subst. rewrite enc_list. apply Forall_cons; [unfold printable; lia|]. apply Forall_app. split; [|apply Forall_cons; [unfold printable; lia|constructor]].
    apply commas_Forall; [unfold printable; lia|]. rewrite Forall_forall in *. intros x Hx. apply in_map_iff in Hx. destruct Hx as (v & <- & Hv). auto.
  - inversion Hp as [| | | | | |? Nd Pd]; subst. rewrite enc_dict. apply Forall_cons; [unfold printable; lia|]. apply Forall_app. split; [|apply Forall_cons; [unfold printable; lia|constructor]].
    apply commas_Forall; [unfold printable; lia|]. rewrite Forall_forall in *. intros x Hx. apply in_map_iff in Hx. destruct Hx as (e & <- & He).
    apply (Permutation_in _ (sort_keys_perm d)) in He. unfold item. apply Forall_app. split; [apply quote_printable, (Pd e He)|]. constructor; [unfold printable; cbn; lia|].
    apply (H e He), (Pd e He).
Qed.
Lemma printable_hashed t : Forall printable t -> utf8 t = Ok t.
Proof.
  intros H. unfold utf8. destruct (existsb surrogate t) eqn:E; [|reflexivity]. apply existsb_exists in E. destruct E as (c & Hc & Hs).
  rewrite Forall_forall in H. specialize (H c Hc). unfold printable, surrogate in *. lia.
Qed.
Lemma proper_mono {F} (P Q : text -> Prop) : (forall s, P s -> Q s) -> forall v : json F, proper P v -> proper Q v.
Proof.
  intros HPQ v. induction v using json_ind'; intros Hp.
  1,2,3,4: constructor.
  - inversion Hp; subst. constructor. auto.
  - inversion Hp as [| | | | |? Pl|]; subst. constructor. rewrite Forall_forall in *. auto.
  - inversion Hp as [| | | | | |? Nd Pd]; subst. constructor; [exact Nd|]. rewrite Forall_forall in *. intros e He. split; [apply HPQ, (Pd e He)|]. apply (H e He), (Pd e He).
Qed.
