(* C160: the paths, waveforms, labels and splits of torchaudio data sets. *)
From Coq Require Import String Ascii Lia ZifyBool ZifyNat.
From Verif Require Import Prelude ListFacts BundleProofs PyValue OmlModel OmlSpec OmlProofs TaudModel TaudSpec TaudProofs.
Local Open Scope string_scope.
Local Open Scope list_scope.
Local Notation length := List.length.

Section Props.
Variable exists_ : path -> bool.
Context {wave label : Type}.
Notation there fa := (fun ps => exists_ {| p_abs := fa; p_parts := ps |}).
Notation extract_xy := (@extract_xy exists_ wave label).

Lemma suffix_part n s : part n -> ~ In "/"%char (txt s) -> part (n ++ txt s).
Proof.
  intros (H1 & H2 & H3) Hs; split; [destruct n; [destruct (H1 eq_refl)|discriminate]|split].
  - intros E; destruct n as [|c n]; [destruct (H1 eq_refl)|]; cbn [app] in E; injection E as -> E; apply app_eq_nil in E; destruct E as (-> & _); destruct (H2 eq_refl).
  - intros H; apply in_app_or in H; destruct H; contradiction.
Qed.
Lemma entry_good ab lb s fa dir name : (forall t, In t lb -> part t) -> refers ab lb s (fa, dir, name) -> (~ In "."%char name \/ there fa (dir ++ [name]) = true) ->
  exists file sx, entry_path exists_ {| p_abs := ab; p_parts := lb |} s = Ok {| p_abs := fa; p_parts := dir ++ [file] |} /\ stands_for (there fa) dir name file /\ file = name ++ sx /\ name <> [] /\ (forall t, In t (dir ++ [file]) -> part t).
Proof.
  intros Hb (abs & l & Sp & Ea & El) Hp; cbn [fst snd] in Ea, El.
  assert (Pt : forall t, In t (dir ++ [name]) -> part t).
  { rewrite El; destruct Sp as (Sp & _); destruct abs; [exact Sp|]; intros t Ht; apply in_app_or in Ht; destruct Ht; auto. }
  assert (Pn : part name) by (apply Pt; apply in_or_app; right; left; reflexivity).
  assert (Hn : name <> []) by (destruct Pn; assumption).
  pose proof (entry_at exists_ {| p_abs := ab; p_parts := lb |} abs l s dir name Sp (eq_sym El) Hn) as E; cbv zeta in E; cbn [p_abs] in E; rewrite <- Ea in E.
  assert (Pd : forall t sx, In t (dir ++ [name ++ txt sx]) -> ~ In "/"%char (txt sx) -> part t).
  { intros t sx Ht Hs; apply in_app_or in Ht; destruct Ht as [Ht|[<-|[]]]; [apply Pt; apply in_or_app; left; exact Ht|apply suffix_part; assumption]. }
  unfold stands_for; unfold text in *; destruct (exists_ {| p_abs := fa; p_parts := dir ++ [name] |}) eqn:E1.
  - exists name, []; split; [exact E|split; [repeat split; intros; try reflexivity; try discriminate|split; [rewrite app_nil_r; reflexivity|split; assumption]]].
  - destruct Hp as [Hp|Hp]; [|discriminate]; rewrite (stem_plain name) in E by exact Hp.
    destruct (exists_ {| p_abs := fa; p_parts := dir ++ [name ++ txt ".wav"] |}) eqn:E2.
    + exists (name ++ txt ".wav"), (txt ".wav"); split; [exact E|split; [repeat split; intros; try reflexivity; try discriminate|split; [reflexivity|split; [assumption|]]]].
      intros t Ht; apply (Pd t ".wav" Ht); cbn; intuition discriminate.
    + destruct (exists_ {| p_abs := fa; p_parts := dir ++ [name ++ txt ".flac"] |}) eqn:E3.
      * exists (name ++ txt ".flac"), (txt ".flac"); split; [exact E|split; [repeat split; intros; try reflexivity; try discriminate|split; [reflexivity|split; [assumption|]]]].
        intros t Ht; apply (Pd t ".flac" Ht); cbn; intuition discriminate.
      * exists name, []; split; [exact E|split; [repeat split; intros; try reflexivity; try discriminate|split; [rewrite app_nil_r; reflexivity|split; assumption]]].
Qed.

(* With a list of entries, every entry is one sample, in their order: the path of the file the entry stands for, under the data
   set's directory when it is relative, and the label that the directory or (for YESNO) the file name says.  Names that are not
   files themselves must have no dot (see C160_dotted_refuted). *)
Theorem C160_paths (d : @dataset wave label) b ab lb w fs cls : d_path d = Some b -> spells ab lb b -> d_walker d = Some w -> w <> [] -> Forall2 (refers ab lb) w fs ->
  (forall fa dir name, In (fa, dir, name) fs -> dir <> [] /\ (~ In "."%char name \/ there fa (dir ++ [name]) = true)) ->
  exists x y, extract_xy d cls = Ok (Paths x y) /\ length x = length w /\ length y = length w /\
    forall i fa dir name, nth_error fs i = Some (fa, dir, name) -> exists xi yi file, nth_error x i = Some xi /\ nth_error y i = Some yi /\
      stands_for (there fa) dir name file /\ spells fa (dir ++ [file]) xi /\ label_is cls dir name yi.
Proof.
  intros Hb Sb Hw Nw F H; assert (Pb : forall t, In t lb -> part t) by (destruct Sb; assumption).
  assert (P : exists ps, entry_paths exists_ {| p_abs := ab; p_parts := lb |} w = Ok ps /\ Forall2 (fun f p => exists file sx, p = {| p_abs := fst (fst f); p_parts := snd (fst f) ++ [file] |} /\
     stands_for (there (fst (fst f))) (snd (fst f)) (snd f) file /\ file = snd f ++ sx /\ snd f <> [] /\ snd (fst f) <> [] /\ forall t, In t (snd (fst f) ++ [file]) -> part t) fs ps).
  { clear - F H Pb; induction F as [|s ((fa, dir), name) w fs R F IH]; [exists []; split; [reflexivity|constructor]|].
    destruct (H fa dir name (or_introl eq_refl)) as (Hd & Hn); destruct (entry_good ab lb s fa dir name Pb R Hn) as (file & sx & E & St & Ef & Nn & Pt).
    destruct IH as (ps & Ep & G); [intros fa' dir' name' Hi; apply H; right; exact Hi|].
    exists ({| p_abs := fa; p_parts := dir ++ [file] |} :: ps); split; [cbn [entry_paths]; rewrite E; cbn [bind]; rewrite Ep; reflexivity|].
    constructor; [|exact G]; exists file, sx; cbn [fst snd]; repeat (split; [first [reflexivity|assumption]|]); assumption. }
  destruct P as (ps & Ep & G); assert (Lp : length ps = length w) by (rewrite <- (Forall2_length _ _ _ G), <- (Forall2_length _ _ _ F); reflexivity).
  unfold TaudModel.extract_xy, paths_from_walker; rewrite Hb, Hw, (to_path_spells _ _ _ Sb), Ep; cbn [bind].
  destruct ps as [|p0 pr]; [destruct w; [destruct (Nw eq_refl)|discriminate Lp]|].
  eexists _, _; split; [reflexivity|split; [rewrite map_length; exact Lp|split; [rewrite map_length; exact Lp|]]].
  intros i fa dir name Hi; destruct (nth_error (p0 :: pr) i) as [p|] eqn:Ei.
  - assert (Rp : exists file sx, p = {| p_abs := fa; p_parts := dir ++ [file] |} /\ stands_for (there fa) dir name file /\ file = name ++ sx /\ name <> [] /\ dir <> [] /\ forall t, In t (dir ++ [file]) -> part t).
    { clear - G Hi Ei; revert i Hi Ei; induction G as [|f q fs' ps' R G IH]; intros [|i] Hi Ei; try discriminate; [|exact (IH i Hi Ei)].
      cbn in Hi, Ei; injection Hi as ->; injection Ei as ->; exact R. }
    destruct Rp as (file & sx & -> & St & Ef & Nn & Nd & Pt); exists (show_path {| p_abs := fa; p_parts := dir ++ [file] |}), (label_from_path cls {| p_abs := fa; p_parts := dir ++ [file] |}), file.
    split; [apply map_nth_error; exact Ei|split; [apply map_nth_error; exact Ei|split; [exact St|split; [apply show_spells; [exact Pt|intros E0; destruct dir; discriminate]|]]]].
    apply label_at; [exact Nn|exists sx; exact Ef|exact Nd].
  - exfalso; apply nth_error_None in Ei; assert (L : (i < length fs)%nat) by (apply nth_error_Some; congruence); rewrite (Forall2_length _ _ _ G) in L; lia.
Qed.

(* Without a list of entries (or with an empty one) every sample of the data set is one sample: its waveform and its third element. *)
Theorem C160_waveforms (d : @dataset wave label) cls : d_path d = None \/ d_walker d = None \/ d_walker d = Some [] ->
  ((forall s, In s (d_items d) -> (3 <= s_len s)%nat) -> extract_xy d cls = Ok (Waves (map s_wave (d_items d)) (map s_label (d_items d)))) /\
  ((exists s, In s (d_items d) /\ (s_len s < 3)%nat) -> extract_xy d cls = Err ValueError).
Proof.
  intros H; assert (P : paths_from_walker exists_ d = Ok None \/ paths_from_walker exists_ d = Ok (Some [])).
  { unfold paths_from_walker; destruct H as [-> | [-> | ->]]; [left; reflexivity|left; destruct (d_path d); reflexivity|destruct (d_path d); [right; reflexivity|left; reflexivity]]. }
  assert (X : extract_xy d cls = do ' (x, y) <- collect (d_items d); Ok (Waves x y)) by (unfold TaudModel.extract_xy; destruct P as [-> | ->]; reflexivity); rewrite X; split.
  - intros Hs; assert (C : collect (d_items d) = Ok (map s_wave (d_items d), map s_label (d_items d))); [|rewrite C; reflexivity].
    clear - Hs; induction (d_items d) as [|s l IH]; [reflexivity|]; cbn [collect map]; pose proof (Hs s (or_introl eq_refl)) as H; destruct (Nat.ltb_spec (s_len s) 3); [lia|].
    rewrite IH by (intros t Ht; apply Hs; right; exact Ht); reflexivity.
  - intros (s & Hi & Hs); assert (C : collect (d_items d) = Err ValueError); [|rewrite C; reflexivity].
    clear - Hi Hs; induction (d_items d) as [|t l IH]; [destruct Hi|]; cbn [collect]; destruct (Nat.ltb_spec (s_len t) 3); [reflexivity|].
    destruct Hi as [->|Hi]; [lia|]; rewrite IH by exact Hi; reflexivity.
Qed.

(* The two official subsets when both can be built; the whole data set and no test split when the class does not take subsets
   (a TypeError in either call); other failures are passed on. *)
Theorem C160_splits (build : option string -> result (@dataset wave label)) cls :
  (forall a b, build (Some "training") = Ok a -> build (Some "testing") = Ok b ->
     load exists_ build cls = do x <- extract_xy a cls; do y <- extract_xy b cls; Ok (x, Some y)) /\
  (build (Some "training") = Err TypeError \/ (exists a, build (Some "training") = Ok a /\ build (Some "testing") = Err TypeError) ->
     load exists_ build cls = do d <- build None; do x <- extract_xy d cls; Ok (x, None)) /\
  (forall e, e <> TypeError -> build (Some "training") = Err e \/ (exists a, build (Some "training") = Ok a /\ build (Some "testing") = Err e) -> load exists_ build cls = Err e).
Proof.
  unfold load, official_or_single; split; [|split].
  - intros a b -> ->; reflexivity.
  - intros [-> | (a & -> & ->)]; cbn [bind]; destruct (build None); reflexivity.
  - intros e He [-> | (a & -> & ->)]; cbn [bind]; destruct e; try reflexivity; destruct (He eq_refl).
Qed.

(* A dot in the name of an entry that is no file itself: what follows the dot is replaced, not kept.  "take.1" and "take.2" both become
   take.wav if there is one, and take.1.wav is never found. *)
Theorem C160_dotted_refuted ab lb s fa dir p q : (forall t, In t lb -> part t) -> refers ab lb s (fa, dir, p ++ "."%char :: q) -> p <> [] -> q <> [] -> ~ In "."%char q ->
  there fa (dir ++ [p ++ "."%char :: q]) = false ->
  (there fa (dir ++ [p ++ txt ".wav"]) = true -> entry_path exists_ {| p_abs := ab; p_parts := lb |} s = Ok {| p_abs := fa; p_parts := dir ++ [p ++ txt ".wav"] |}) /\
  (there fa (dir ++ [p ++ txt ".wav"]) = false -> there fa (dir ++ [p ++ txt ".flac"]) = false ->
     entry_path exists_ {| p_abs := ab; p_parts := lb |} s = Ok {| p_abs := fa; p_parts := dir ++ [p ++ "."%char :: q] |}).
Proof.
  intros Hb (abs & l & Sp & Ea & El) Hp Hq Nq Ne; cbn [fst snd] in Ea, El; assert (Hn : p ++ "."%char :: q <> []) by (destruct p; discriminate).
  pose proof (entry_at exists_ {| p_abs := ab; p_parts := lb |} abs l s dir _ Sp (eq_sym El) Hn) as E; cbv zeta in E; cbn [p_abs] in E; rewrite <- Ea in E; rewrite (stem_dotted p q Hp Hq Nq) in E; unfold text in *; rewrite Ne in E.
  split; [intros E1; rewrite E1 in E; exact E|intros E1 E2; rewrite E1, E2 in E; exact E].
Qed.

(* Entries that are bare names, in a data set other than YESNO: every label is the name of the data set's directory. *)
Theorem C160_flat_refuted (d : @dataset wave label) b ab lb base w cls : d_path d = Some b -> spells ab (lb ++ [base]) b -> d_walker d = Some w -> w <> [] -> (forall s, In s w -> part s) -> ~ says cls "YESNO" ->
  exists x, extract_xy d cls = Ok (Paths x (repeat base (length w))).
Proof.
  intros Hb Sb Hw Nw H Hc.
  assert (P : exists ps, entry_paths exists_ {| p_abs := ab; p_parts := lb ++ [base] |} w = Ok ps /\ length ps = length w /\ map (label_from_path cls) ps = repeat base (length w)).
  { clear - H Hc; induction w as [|s w IH]; [exists []; repeat split|]; destruct IH as (ps & Ep & L & M); [intros t Ht; apply H; right; exact Ht|].
    pose proof (H s (or_introl eq_refl)) as Ps; assert (Sp : spells false [s] s) by (split; [intros t [<-|[]]; exact Ps|split; [discriminate|reflexivity]]).
    assert (Ns : s <> []) by (destruct Ps; assumption).
    pose proof (entry_at exists_ {| p_abs := ab; p_parts := lb ++ [base] |} false [s] s (lb ++ [base]) s Sp eq_refl Ns) as E; cbv zeta in E.
    match type of E with _ = Ok ?q => exists (q :: ps) end; split; [cbn [entry_paths]; rewrite E; cbn [bind]; rewrite Ep; reflexivity|split; [cbn [length]; f_equal; exact L|]].
    cbn [map repeat length]; f_equal; [|exact M].
    unfold label_from_path; cbv zeta; unfold parent_name; cbn [p_parts]; rewrite removelast_last, last_app; destruct (String.eqb _ "SPEECHCOMMANDS"); [reflexivity|].
    destruct (String.eqb_spec (str (map up (strip cls))) "YESNO") as [E0|_]; [destruct Hc; apply (says_spec cls "YESNO" yesno_caps); exact E0|reflexivity]. }
  destruct P as (ps & Ep & L & M); unfold TaudModel.extract_xy, paths_from_walker; rewrite Hb, Hw, (to_path_spells _ _ _ Sb), Ep; cbn [bind].
  destruct ps as [|p0 pr]; [destruct w; [destruct (Nw eq_refl)|discriminate L]|]; rewrite M; eexists; reflexivity.
Qed.

(* A relative data directory that the entries already begin with is put in front of them once more. *)
Theorem C160_relative_refuted lb l s : spells false (lb ++ l) s -> l <> [] -> exists dir file, entry_path exists_ {| p_abs := false; p_parts := lb |} s = Ok {| p_abs := false; p_parts := lb ++ lb ++ dir ++ [file] |} /\ length (dir ++ [file]) = length l.
Proof.
  intros Sp Nl; destruct (exists_last Nl) as (dir & n & El); subst l.
  assert (Hn : n <> []) by (destruct Sp as (Sp & _); specialize (Sp n ltac:(apply in_or_app; right; apply in_or_app; right; left; reflexivity)); destruct Sp; assumption).
  pose proof (entry_at exists_ {| p_abs := false; p_parts := lb |} false (lb ++ dir ++ [n]) s (lb ++ lb ++ dir) n Sp ltac:(cbn [p_parts]; rewrite <- !app_assoc; reflexivity) Hn) as E; cbv zeta in E; cbn [p_abs] in E.
  match type of E with _ = Ok {| p_abs := _; p_parts := _ ++ [?f] |} => exists dir, f end; split; [rewrite E, <- !app_assoc; reflexivity|rewrite !app_length; reflexivity].
Qed.
End Props.

(* Examples *)
Definition zx_exists (p : path) : bool := match map str (p_parts p) with ["d"; "yes"; "a.wav"] | ["d"; "take.wav"] => true | _ => false end.
Definition zx_part (s : string) : bool := negb (String.eqb s "") && negb (String.eqb s ".") && negb (existsb (Ascii.eqb "/") (txt s)).
Lemma zx_spells abs l : l <> [] -> forallb zx_part l = true -> spells abs (map txt l) ((if abs then txt "/" else []) ++ slashes (map txt l)).
Proof.
  intros N H; split; [|split; [destruct l; [destruct (N eq_refl)|discriminate]|reflexivity]]; intros t Ht; apply in_map_iff in Ht; destruct Ht as (s & <- & Hs); rewrite forallb_forall in H; specialize (H s Hs).
  unfold zx_part in H; apply andb_true_iff in H; destruct H as (H & H3); apply andb_true_iff in H; destruct H as (H1 & H2); split; [|split].
  - intros E; destruct s; [discriminate H1|discriminate E].
  - intros E; apply (f_equal str) in E; rewrite !str_txt in E; subst s; discriminate.
  - intros Hi; assert (T : existsb (Ascii.eqb "/") (txt s) = true) by (apply existsb_exists; exists "/"%char; split; [exact Hi|reflexivity]); rewrite T in H3; discriminate.
Qed.
Example C160_ex_paths : extract_xy zx_exists {| d_path := Some (txt "/d"); d_walker := Some [txt "yes/a"; txt "no/b.wav"]; d_items := @nil (@sample unit unit) |} (txt "speechcommands")
  = Ok (Paths [txt "/d/yes/a.wav"; txt "/d/no/b.wav"] [txt "yes"; txt "no"]).
Proof. reflexivity. Qed.
Example C160_ex_refers : spells true (map txt ["d"]) (txt "/d") /\ refers true (map txt ["d"]) (txt "yes/a") (true, map txt ["d"; "yes"], txt "a") /\ ~ In "."%char (txt "a").
Proof.
  split; [exact (zx_spells true ["d"] ltac:(discriminate) eq_refl)|split; [|cbn; intuition discriminate]].
  exists false, (map txt ["yes"; "a"]); split; [exact (zx_spells false ["yes"; "a"] ltac:(discriminate) eq_refl)|split; reflexivity].
Qed.
Example C160_ex_dotted : refers true (map txt ["d"]) (txt "take.1") (true, map txt ["d"], txt "take" ++ "."%char :: txt "1") /\ entry_path zx_exists (to_path (txt "/d")) (txt "take.1") = Ok (to_path (txt "/d/take.wav")).
Proof. split; [exists false, (map txt ["take.1"]); split; [exact (zx_spells false ["take.1"] ltac:(discriminate) eq_refl)|split; reflexivity]|reflexivity]. Qed.
Example C160_ex_yesno : says (txt " YesNo") "YESNO".
Proof.
  exists (txt " "), (txt "YesNo"), []; split; [intros c [<-|[]]; apply is_space_spec; reflexivity|split; [intros c []|split; [reflexivity|]]].
  unfold txt; cbn [list_ascii_of_string]; repeat (apply Forall2_cons; [unfold letter_of; vm_compute; auto|]); apply Forall2_nil.
Qed.
Example C160_ex_relative : spells false (map txt ["cache"] ++ map txt ["yes"; "a"]) (txt "cache/yes/a") /\ entry_path zx_exists (to_path (txt "cache")) (txt "cache/yes/a") = Ok (to_path (txt "cache/cache/yes/a")).
Proof. split; [exact (zx_spells false ["cache"; "yes"; "a"] ltac:(discriminate) eq_refl)|reflexivity]. Qed.

Print Assumptions C160_paths.
Print Assumptions C160_waveforms.
Print Assumptions C160_splits.
Print Assumptions C160_dotted_refuted.
Print Assumptions C160_flat_refuted.
Print Assumptions C160_relative_refuted.
