From Coq Require Import String Ascii Lia.
From Verif Require BenchIoModel OmlModel.
From Verif Require Import Prelude OmlSpec OmlProofs McdModel McdSpec.
Local Open Scope string_scope.
Local Open Scope list_scope.
Local Notation length := List.length.

Lemma get_says e k v : get e k = Some v <-> says e k v.
Proof.
  induction e as [|[k' v'] e IH]; cbn [get]; [split; [discriminate|intros ([|p a] & b & E & _); discriminate]|]. destruct (String.eqb_spec k' k) as [->|N].
  - split; [intros [= ->]; exists [], e; split; [reflexivity|intros []]|]. intros ([|[k2 v2] a] & b & E & H); [injection E as -> ->; reflexivity|]. injection E as <- <- _. destruct H. left. reflexivity.
  - rewrite IH. split; intros (a & b & E & H).
    + exists ((k', v') :: a), b. split; [rewrite E; reflexivity|]. intros [E'|H']; [exact (N E')|exact (H H')].
    + destruct a as [|[k2 v2] a]; [injection E; congruence|]. injection E as <- <- ->. exists a, b. split; [reflexivity|]. intros H'. apply H. right. exact H'.
Qed.
Lemma get_missing e k : get e k = None <-> missing e k.
Proof.
  unfold missing. induction e as [|[k' v'] e IH]; cbn [get map fst In]; [tauto|]. destruct (String.eqb_spec k' k) as [->|N]; [split; [discriminate|tauto]|]. rewrite IH. tauto.
Qed.
Lemma filled_some e k v : filled e k = Some v <-> says e k v /\ v <> "".
Proof.
  unfold filled. rewrite <- get_says. destruct (get e k) as [s|]; [|split; [discriminate|intros [H _]; discriminate]]. destruct (String.eqb_spec s "") as [->|N]; split.
  - discriminate.
  - intros [[= <-] H]. congruence.
  - intros [= <-]. auto.
  - intros [H _]. exact H.
Qed.
Lemma filled_none e k : filled e k = None <-> unset e k.
Proof.
  unfold unset. split.
  - intros H v Hs. destruct (string_dec v "") as [E|N]; [exact E|]. assert (K : filled e k = Some v) by (apply filled_some; auto). congruence.
  - intros H. destruct (filled e k) as [v|] eqn:E; [|reflexivity]. apply filled_some in E. destruct E as [E1 E2]. destruct (E2 (H v E1)).
Qed.
Fixpoint pick (e : env) (t : list (string * (string -> string))) : option string := match t with [] => None | (k, f) :: r => match filled e k with Some v => Some (f v) | None => pick e r end end.
Lemma pick_chooses e t : chooses e t (pick e t).
Proof.
  induction t as [|[k f] t IH]; cbn [pick]; [apply chooses_none; intros k f []|]. destruct (filled e k) as [v|] eqn:E.
  - apply filled_some in E. destruct E as [E1 E2]. apply (chooses_some e _ [] k f t v); auto. intros k' f' [].
  - apply filled_none in E. destruct IH as [H|a k2 f2 b v H1 H2 H3 H4].
    + apply chooses_none. intros k' f' [[= <- <-]|Hi]; [exact E|eapply H; exact Hi].
    + apply (chooses_some e _ ((k, f) :: a) k2 f2 b v); auto; [rewrite H1; reflexivity|]. intros k' f' [[= <- <-]|Hi]; [exact E|eapply H2; exact Hi].
Qed.
Lemma chooses_pick e t r : chooses e t r -> r = pick e t.
Proof.
  intros [H|a k f b v -> H2 H3 H4].
  - induction t as [|[k f] t IH]; cbn [pick]; [reflexivity|]. rewrite (proj2 (filled_none e k)) by (apply (H k f); left; reflexivity). apply IH. intros k' f' Hi. apply (H k' f'). right. exact Hi.
  - induction a as [|[k' f'] a IH]; cbn [app pick]; [rewrite (proj2 (filled_some e k v)) by auto; reflexivity|]. rewrite (proj2 (filled_none e k')) by (apply (H2 k' f'); left; reflexivity). apply IH. intros k2 f2 Hi. apply (H2 k2 f2). right. exact Hi.
Qed.
Lemma app_assoc_s (a b c : string) : ((a ++ b) ++ c = a ++ b ++ c)%string.
Proof. induction a as [|x a IH]; cbn; [reflexivity|]. f_equal. exact IH. Qed.
Section Paths.
Variable path : string -> string.
Lemma root_pick e : model_root path e = pick e (root_table path).
Proof. reflexivity. Qed.
Lemma torch_pick e : torch_home path e = pick e (torch_table path).
Proof. unfold torch_home, first_filled, in_root, model_root, torch_table, join. cbn [pick]. destruct (filled e "TORCH_HOME"), (filled e "MODSSC_TORCH_HOME"), (filled e "MODSSC_MODEL_CACHE_ROOT"), (filled e "MODSSC_CACHE_ROOT"); try reflexivity. rewrite !app_assoc_s. reflexivity. Qed.
Lemma hf_pick e : hf_home path e = pick e (hf_table path).
Proof. unfold hf_home, in_root, model_root, hf_table, join. cbn [pick]. destruct (filled e "HF_HOME"), (filled e "MODSSC_MODEL_CACHE_ROOT"), (filled e "MODSSC_CACHE_ROOT"); try reflexivity. rewrite !app_assoc_s. reflexivity. Qed.
Lemma clip_pick e : openclip_dir path e = pick e (clip_table path).
Proof. unfold openclip_dir, first_filled, in_root, model_root, clip_table, join. cbn [pick]. destruct (filled e "MODSSC_OPENCLIP_CACHE_DIR"), (filled e "OPENCLIP_CACHE_DIR"), (filled e "MODSSC_MODEL_CACHE_ROOT"), (filled e "MODSSC_CACHE_ROOT"); try reflexivity. rewrite !app_assoc_s. reflexivity. Qed.
Lemma st_pick e : st_cache path e = pick e (st_table path).
Proof. unfold st_cache, hf_home, in_root, model_root, st_table, join. cbn [pick]. destruct (filled e "SENTENCE_TRANSFORMERS_HOME"), (filled e "HF_HOME"), (filled e "MODSSC_MODEL_CACHE_ROOT"), (filled e "MODSSC_CACHE_ROOT"), (filled e "TRANSFORMERS_CACHE"); try reflexivity; rewrite !app_assoc_s; reflexivity. Qed.
Lemma home_settled : settles path -> forall e h, torch_home path e = Some h -> path h = h /\ h <> "".
Proof.
  intros [S1 S2] e h. unfold torch_home, in_root, model_root, join. destruct (first_filled e _) as [v|]; [intros [= <-]; split; apply S1|].
  assert (N : forall a b : string, a <> "" -> (a ++ b)%string <> "") by (intros [|c a] b H; [congruence|discriminate]).
  destruct (filled e "MODSSC_MODEL_CACHE_ROOT") as [v|]; [intros [= <-]; split; [apply S2, S1|apply N, S1]|]. destruct (filled e "MODSSC_CACHE_ROOT") as [v|]; [|discriminate]. intros [= <-]. split; [apply S2, S2, S1|apply N, N, S1].
Qed.
End Paths.
Lemma get_app e k k' v : get e k = None -> get (e ++ [(k, v)]) k' = if String.eqb k k' then Some v else get e k'.
Proof.
  intros H. induction e as [|[k2 v2] e IH]; cbn [app get]; [reflexivity|]. cbn [get] in H. destruct (String.eqb_spec k2 k) as [->|N]; [discriminate|]. rewrite (IH H). destruct (String.eqb_spec k2 k') as [->|]; [|reflexivity]. destruct (String.eqb_spec k k'); [congruence|reflexivity].
Qed.
(* words *)
Lemma lower_folds c d : BenchIoModel.is_upper d = false -> (BenchIoModel.lower c = d <-> folds c d).
Proof.
  intros Hd. unfold BenchIoModel.lower, folds. destruct (BenchIoModel.is_upper c) eqn:E.
  - unfold BenchIoModel.is_upper in E. apply andb_prop in E. destruct E as [E1 E2]. apply Nat.leb_le in E1, E2. split.
    + intros <-. right. split; [lia|]. apply nat_ascii_embedding. lia.
    + intros [->|[_ H]]; [exfalso; unfold BenchIoModel.is_upper in Hd; apply andb_false_iff in Hd; rewrite !Nat.leb_gt in Hd; lia|]. rewrite <- H. apply ascii_nat_embedding.
  - unfold BenchIoModel.is_upper in E. apply andb_false_iff in E. rewrite !Nat.leb_gt in E. split; [auto|]. intros [H|[H _]]; [exact H|lia].
Qed.
Lemma words_fold w n : (forall c, In c n -> BenchIoModel.is_upper c = false) -> (map BenchIoModel.lower w = n <-> Forall2 folds w n).
Proof.
  revert n. induction w as [|c w IH]; intros n Hn; cbn [map].
  - split; [intros <-; constructor|intros H; inversion H; reflexivity].
  - split.
    + intros <-. constructor; [apply lower_folds; [apply Hn; left; reflexivity|reflexivity]|]. apply IH; [|reflexivity]. intros d Hd. apply Hn. right. exact Hd.
    + intros H. inversion H as [|c' d w' n' H1 H2]; subst. f_equal; [apply lower_folds; [apply Hn; left; reflexivity|exact H1]|]. apply IH; [|exact H2]. intros x Hx. apply Hn. right. exact Hx.
Qed.
Lemma space_lower c : OmlModel.is_space (BenchIoModel.lower c) = OmlModel.is_space c.
Proof. destruct c as [[] [] [] [] [] [] [] []]; reflexivity. Qed.
Lemma words_plain n c : In n false_values -> In c (list_ascii_of_string n) -> BenchIoModel.is_upper c = false /\ OmlModel.is_space c = false.
Proof. cbn [false_values In]. intros Hn Hc. repeat (destruct Hn as [<-|Hn]; [cbn in Hc; repeat (destruct Hc as [<-|Hc]; [split; reflexivity|]); destruct Hc|]). destruct Hn. Qed.
Lemma flag_ok v : existsb (String.eqb (string_of_list_ascii (map BenchIoModel.lower (OmlModel.strip (list_ascii_of_string v))))) false_values = true <-> says_no v.
Proof.
  rewrite existsb_exists. split.
  - intros (n & Hn & E). apply String.eqb_eq in E. assert (E' : map BenchIoModel.lower (OmlModel.strip (list_ascii_of_string v)) = list_ascii_of_string n) by (rewrite <- E, list_ascii_of_string_of_list_ascii; reflexivity).
    destruct (lstrip_split (list_ascii_of_string v)) as (a & Ha & Ea & _). destruct (rstrip_split (OmlModel.lstrip (list_ascii_of_string v))) as (b & Hb & Eb).
    exists a, (OmlModel.strip (list_ascii_of_string v)), b, n. split; [rewrite Ea at 1; rewrite Eb at 1; reflexivity|]. split; [intros c Hc; apply is_space_spec, Ha, Hc|]. split; [intros c Hc; apply is_space_spec, Hb, Hc|]. split; [exact Hn|].
    apply words_fold; [|exact E']. intros c Hc. apply (words_plain n c Hn Hc).
  - intros (a & w & b & n & E & Ha & Hb & Hn & Hf). exists n. split; [exact Hn|]. apply words_fold in Hf; [|intros c Hc; apply (words_plain n c Hn Hc)].
    rewrite E, (strip_around a w b (blank_b _ Ha)), Hf, string_of_list_ascii_of_string; [apply String.eqb_refl| |apply blank_b, Hb].
    assert (Hs : forall c, In c w -> OmlModel.is_space c = false) by (intros c Hc; rewrite <- space_lower; apply (words_plain n _ Hn); rewrite <- Hf; apply in_map, Hc).
    intros c r. split; intros ->; apply Hs; [left; reflexivity|apply in_or_app; right; left; reflexivity].
Qed.
(* devices *)
Lemma mps_ok t : mps_available t = true <-> exists t' m, t = Some t' /\ t_mps t' = Some m /\ mps_works m.
Proof.
  unfold mps_available, mps_works. split.
  - destruct t as [t|]; [|discriminate]. destruct (t_mps t) as [m|] eqn:Em; [|discriminate]. intros H. exists t, m. split; [reflexivity|]. split; [exact Em|].
    destruct (m_built m) as [[[]|e]|]; try discriminate; (destruct (m_available m) as [[[]| |e']|]; try discriminate; destruct (m_zeros m) as [[]|e2]; [auto|discriminate]).
  - intros (t' & m & -> & -> & [-> | ->] & -> & ->); reflexivity.
Qed.
Lemma calls_cached l : forall n i x, nth_error l i = Some (Some "auto", None, x) -> nth_error (calls l (Some n)) i = Some (Ok (Some n)).
Proof.
  induction l as [|[[d g] f] l IH]; intros n [|i] x; cbn [nth_error calls]; try discriminate.
  - intros [= -> -> ->]. reflexivity.
  - intros H. assert (E : snd (resolve_device d g f (Some n)) = Some n) by (unfold resolve_device; destruct d as [d|]; [|reflexivity]; destruct (negb (String.eqb d "auto")); [reflexivity|]; destruct g; reflexivity).
    destruct (resolve_device d g f (Some n)) as [y c]. cbn in E. rewrite E. cbn [nth_error]. apply (IH n i x H).
Qed.
