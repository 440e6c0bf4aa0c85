(* Canonical JSON: the properties. *)
From Coq Require Import String.
From Verif Require Import Prelude ListFacts DecString JsonModel JsonSpec JsonProofs.
Local Open Scope Z_scope.
Local Open Scope list_scope.

(* C45: with ensure_ascii (sampling, graph, data loader and benchmark fingerprints) two values have the same encoding
   exactly when they are equal up to the order of dictionary entries.  Strings are any sequences of code points in
   which no two lone surrogates form a pair. *)
Theorem C45_ascii_injective {F} (show_float : F -> text) a b : float_repr show_float ->
  proper (fun s => code_points s /\ unpaired s) a -> proper (fun s => code_points s /\ unpaired s) b ->
  (encode show_float true a = encode show_float true b <-> same a b).
Proof.
  intros HF Ha Hb. assert (M : forall v : json F, proper (fun s => code_points s /\ unpaired s) v -> good true v) by (apply proper_mono; intros s [H1 H2]; split; auto).
  split; [apply encode_same; auto|apply same_encode; auto].
Qed.
(* C45: without it (preprocessing fingerprints) for all strings *)
Theorem C45_unicode_injective {F} (show_float : F -> text) a b : float_repr show_float ->
  proper code_points a -> proper code_points b ->
  (encode show_float false a = encode show_float false b <-> same a b).
Proof.
  intros HF Ha Hb. assert (M : forall v : json F, proper code_points v -> good false v) by (apply proper_mono; intros s H1; split; [auto|discriminate]).
  split; [apply encode_same; auto|apply same_encode; auto].
Qed.
(* C45: with ensure_ascii the text is printable ASCII, so turning it into bytes never fails *)
Theorem C45_ascii_output {F} (show_float : F -> text) v : (forall f, Forall (fun c => 32 <= c <= 126) (show_float f)) -> proper code_points v ->
  Forall (fun c => 32 <= c <= 126) (encode show_float true v) /\ hashed_text show_float true v = Ok (encode show_float true v).
Proof. intros Hf Hv. pose proof (encode_printable show_float Hf v Hv) as H. split; [exact H|]. apply printable_hashed, H. Qed.
(* C45: two lone surrogates are written like the character they would encode *)
Theorem C45_lone_surrogates_refuted : exists a b : json Empty_set,
  proper code_points a /\ proper code_points b /\ ~ same a b /\
  encode (fun f : Empty_set => match f return text with end) true a = encode (fun f : Empty_set => match f return text with end) true b.
Proof.
  exists (JStr [55296; 56320]), (JStr [65536]). split; [constructor; intros c H; cbn in H; lia|]. split; [constructor; intros c H; cbn in H; lia|].
  split; [intros H; inversion H|]. vm_compute. reflexivity.
Qed.

(* ---- the hypotheses are met *)
(* floats that happen to be integers, written 3.0 *)
Definition show_whole (z : Z) : text := codes (dec z) ++ [46; 48].
Example show_whole_ok : float_repr show_whole /\ forall z, Forall (fun c => 32 <= c <= 126) (show_whole z).
Proof.
  split; [split; [|split; [|split]]|].
  - intros f g H. apply app_inv_tail in H. apply dec_inj, codes_inj, H.
  - intros f. unfold show_whole. apply Forall_app. split; [apply dec_number|]. repeat (apply Forall_cons; [unfold number_char; lia|]). constructor.
  - intros f z H. assert (In 46 (codes (dec z))) by (rewrite <- H; apply in_or_app; right; left; reflexivity). apply dec_chars in H0. lia.
  - intros f. destruct (dec_first f) as (c & r & E & Hc). exists c, (r ++ [46; 48]). unfold show_whole. rewrite E. auto.
  - intros z. unfold show_whole. apply Forall_app. split; [apply codes_printable_dec|]. repeat (apply Forall_cons; [lia|]). constructor.
Qed.
(* {"b": [1, 2.0, null], "a": a string of three characters} and the same with its keys the other way round *)
Definition sample_json : json Z := JDict [([98], JList [JInt 1; JFloat 2; JNull]); ([97], JStr [233; 10; 119070])].
Definition sample_json' : json Z := JDict [([97], JStr [233; 10; 119070]); ([98], JList [JInt 1; JFloat 2; JNull])].
Example sample_json_proper : proper (fun s => code_points s /\ unpaired s) sample_json /\ same sample_json sample_json' /\
  encode show_whole true sample_json = codes "{""a"":""\u00e9\n\ud834\udd1e"",""b"":[1,2.0,null]}" /\
  encode show_whole true sample_json' = encode show_whole true sample_json.
Proof.
  split; [|split; [|split; vm_compute; reflexivity]].
  - constructor; [repeat constructor; cbn; intuition discriminate|]. 
    assert (T : forall s, Forall (fun c => 0 <= c < 1114112) s -> code_points s) by (intros s H c Hc; rewrite Forall_forall in H; apply H, Hc).
    assert (L : forall c, 0 <= c < 1114112 -> code_points [c] /\ unpaired [c]) by (intros c Hc; split; [apply T; repeat constructor; lia|exact I]).
    apply Forall_cons; [split; [apply L; lia|constructor; repeat constructor]|]. apply Forall_cons; [|constructor]. split; [apply L; lia|]. constructor.
    split; [apply T; repeat (apply Forall_cons; [lia|]); constructor|]. cbn. unfold high, low. lia.
  - apply (same_dict _ [([98], JList [JInt 1; JFloat 2; JNull]); ([97], JStr [233; 10; 119070])]); [apply perm_swap|].
    repeat constructor.
Qed.

Print Assumptions C45_ascii_injective.
Print Assumptions C45_unicode_injective.
Print Assumptions C45_ascii_output.
Print Assumptions C45_lone_surrogates_refuted.
