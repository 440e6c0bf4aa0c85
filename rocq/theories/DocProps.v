(* C178: the command line starts when every brick is there or lacks a module from outside, and doctor tells which. *)
From Coq Require Import String Ascii Lia.
From Verif Require Import Prelude DocModel DocSpec DocProofs.
Local Open Scope string_scope.
Local Open Scope list_scope.
Local Notation length := List.length.

(* The start succeeds exactly when every brick is there or its import names a missing module from outside; the status is then that of every brick, in order. *)
Theorem C178_start : forall load ss, register load bricks = Started ss <-> Forall2 (settled load) bricks ss.
Proof. intros load ss. apply register_ok. Qed.
(* Otherwise it ends with the first brick that is neither, and its error. *)
Theorem C178_fails : forall load l m e, register load l = Fails m e -> exists a n b ss, l = a ++ (m, n) :: b /\ Forall2 (settled load) a ss /\ (forall s, ~ settled load (m, n) s) /\
  (load m = Other e \/ (exists who, load m = ImportFails who e) \/ load m = Module false).
Proof.
  intros load l m e. induction l as [|[m' n'] l IH]; cbn [register]; [discriminate|]. destruct (try_add load m' n') as [s|e'] eqn:E.
  - destruct (register load l) as [r|m2 e2]; [discriminate|]. intros [= -> ->]. destruct (IH eq_refl) as (a & n & b & ss & -> & H1 & H2). exists ((m', n') :: a), n, b, (s :: ss). split; [reflexivity|]. split; [constructor; [apply try_ok, E|exact H1]|exact H2].
  - intros [= -> ->]. exists [], n', l, []. split; [reflexivity|]. split; [constructor|]. split; [intros s Hs; apply try_ok in Hs; congruence|]. unfold try_add in E. destruct (load m) as [[]|who msg|msg]; [discriminate|auto| |injection E as ->; auto]. destruct (internal who msg m); [|discriminate]. injection E as ->. right. left. exists who. reflexivity.
Qed.
(* The missing module is the one the error names; else the one quoted in the text of the error; else none, which counts as a fault of the brick. *)
Theorem C178_missing : 
  (forall x msg, x <> "" -> missing_module (Some x) msg = Some x) /\
  (forall x, x <> "" -> plain_end (list_ascii_of_string x) -> missing_module None ("No module named '" ++ x ++ "'") = Some x) /\
  (forall msg, ~ contains "No module named" msg -> missing_module None msg = None).
Proof.
  repeat apply conj.
  - intros [|c x] msg N; [congruence|reflexivity].
  - apply text_missing.
  - intros msg H. unfold missing_module. rewrite marker_none by exact H. reflexivity.
Qed.
(* doctor: one line for a brick that is there; for another the error, then the missing module and the advice; code 2 exactly when a brick is not there. *)
Theorem C178_doctor : forall load l ss, Forall2 (settled load) l ss ->
  (snd (doctor ss) = 0 <-> forall m n, In (m, n) l -> load m = Module true) /\
  (snd (doctor ss) = 0 \/ snd (doctor ss) = 2) /\
  (forall m n, In (m, n) l -> load m = Module true -> In (n ++ ": ok")%string (fst (doctor ss))) /\
  (forall m n who msg x, In (m, n) l -> load m = ImportFails who msg -> msg <> "" -> missing_module who msg = Some x -> x <> "" ->
     In (n ++ ": unavailable (" ++ msg ++ ")")%string (fst (doctor ss)) /\ In ("  missing module: " ++ x)%string (fst (doctor ss)) /\
     forall h, advised n x (Some h) -> In ("  install: pip install ""modssc[" ++ h ++ "]""")%string (fst (doctor ss))).
Proof.
  intros load l ss H. assert (F : forall p, In p l -> exists s, In s ss /\ settled load p s) by (clear -H; induction H as [|p s l ss H1 _ IH]; intros q Hq; [destruct Hq|]; destruct Hq as [<-|Hq]; [exists s; split; [left; reflexivity|exact H1]|]; destruct (IH q Hq) as (s' & Hi & Hs); exists s'; split; [right; exact Hi|exact Hs]).
  assert (B : forall s, In s ss -> exists p, In p l /\ settled load p s) by (clear -H; induction H as [|p s l ss H1 _ IH]; intros q Hq; [destruct Hq|]; destruct Hq as [<-|Hq]; [exists p; split; [left; reflexivity|exact H1]|]; destruct (IH q Hq) as (s' & Hi & Hs); exists s'; split; [right; exact Hi|exact Hs]).
  cbn [doctor fst snd]. split; [|split; [destruct (existsb _ ss); auto|split]].
  - destruct (existsb (fun s => negb (s_available s)) ss) eqn:E; split; try discriminate; try reflexivity.
    + intros Hall. apply existsb_exists in E. destruct E as (s & Hs & Ea). destruct (B s Hs) as ([m n] & Hp & Hst). pose proof (Hall m n Hp) as Hm. inversion Hst as [m' n' E'|m' n' who msg x h E' _ _ _ _]; subst; [discriminate|congruence].
    + intros _ m n Hp. destruct (F (m, n) Hp) as (s & Hs & Hst). inversion Hst as [m' n' E'|m' n' who msg x h E' _ _ _ _]; subst; [exact E'|]. apply not_true_iff_false in E. destruct E. apply existsb_exists. eexists. split; [exact Hs|reflexivity].
  - intros m n Hp Hm. destruct (F (m, n) Hp) as (s & Hs & Hst). apply in_flat_map. exists s. split; [exact Hs|]. inversion Hst as [m' n' E'|m' n' who msg x h E' _ _ _ _]; subst; [left; reflexivity|congruence].
  - intros m n who msg x Hp Hm Nm Ex Nx. destruct (F (m, n) Hp) as (s & Hs & Hst). inversion Hst as [m' n' E'|m' n' who' msg' x' h E' Ex' _ _ A]; subst; [congruence|]. assert (who' = who /\ msg' = msg) as [-> ->] by (split; congruence). assert (x' = x) by congruence. subst x'.
    assert (G : forall y, y <> "" -> filled (Some y) = Some y) by (intros [|c y] N; [congruence|reflexivity]).
    assert (K : forall t, In t (doctor_lines {| s_module := m; s_name := n; s_available := false; s_error := Some msg; s_missing := Some x; s_hint := h |}) -> In t (flat_map doctor_lines ss)) by (intros t Ht; apply in_flat_map; eexists; split; [exact Hs|exact Ht]).
    unfold doctor_lines in K. cbn [s_available s_name s_error s_missing s_hint] in K. rewrite (G msg Nm), (G x Nx) in K. split; [apply K; left; reflexivity|]. split; [apply K; right; left; reflexivity|].
    intros h' A'. apply hint_advised in A, A'. assert (Eh : h = Some h') by congruence. clear A. subst h. apply K. right. right. assert (Nh : h' <> "").
    { apply hint_advised in A'. inversion A' as [q Hq|q _ Hq|]; subst; cbn in Hq; intuition congruence. }
    rewrite (G h' Nh). left. reflexivity.
Qed.
(* Refuted: "the advice of doctor can be followed".  For the inductive and supervised bricks it names two extras in one pair of brackets, which pip cannot read. *)
Theorem C178_advice_refuted : exists load ss, Forall2 (settled load) bricks ss /\ In "  install: pip install ""modssc[inductive-torch or inductive-tf]""" (fst (doctor ss)).
Proof.
  exists (fun m => if String.eqb m "modssc.cli.inductive" then ImportFails (Some "jax") "No module named 'jax'" else Module true). eexists. split; [apply C178_start; reflexivity|]. cbn. tauto.
Qed.
(* Refuted: "the advice names an extra of the brick".  Without torch the supervised brick is advised the graph extra; without a part of torch nothing is advised to the evaluation brick. *)
Theorem C178_module_first_refuted : advised "supervised" "torch" (Some "graph") /\ advised "evaluation" "torch.nn" None.
Proof. split; [apply advised_module; cbn; tauto|]. apply advised_none; cbn; intuition discriminate. Qed.
(* Refuted: "a missing module from outside leaves the other commands usable".  A module whose name begins with modssc, or an import error without a name, ends the start for every brick. *)
Theorem C178_outside_refuted : forall rest msg, ~ contains "No module named" msg -> 
  (forall load, load "modssc.cli.datasets" = ImportFails (Some ("modssc" ++ rest)%string) msg -> register load bricks = Fails "modssc.cli.datasets" msg) /\
  (forall load, load "modssc.cli.datasets" = ImportFails None msg -> register load bricks = Fails "modssc.cli.datasets" msg).
Proof.
  intros rest msg H. split; intros load E; unfold bricks; cbn [map register append]; unfold try_add; rewrite E; unfold internal, missing_module.
  - cbn [append]. assert (P : String.prefix "modssc" ("modssc" ++ rest) = true) by (apply prefix_begins; exists rest; reflexivity). cbn [append] in P. rewrite P, orb_true_r. reflexivity.
  - rewrite marker_none by exact H. reflexivity.
Qed.

(* Concrete cases *)
Definition no_torch (m : string) : outcome := if String.eqb m "modssc.cli.graph" then ImportFails None "No module named 'torch'" else Module true.
Example C178_sample : exists ss, register no_torch bricks = Started ss /\ length ss = 9%nat /\ snd (doctor ss) = 2 /\
  firstn 6 (fst (doctor ss)) = ["datasets: ok"; "sampling: ok"; "preprocess: ok"; "graph: unavailable (No module named 'torch')"; "  missing module: torch"; "  install: pip install ""modssc[graph]"""].
Proof. eexists. repeat split. Qed.
Example C178_fails_sample : register (fun _ => Module false) bricks = Fails "modssc.cli.datasets" "no app".
Proof. reflexivity. Qed.
Example C178_plain : plain_end (list_ascii_of_string "torch_geometric").
Proof. intros c r [E|E]; [injection E as <- _; split; discriminate|]. change (list_ascii_of_string "torch_geometric") with (list_ascii_of_string "torch_geometri" ++ ["c"%char]) in E. apply app_inj_tail in E. destruct E as [_ <-]. split; discriminate. Qed.

Print Assumptions C178_start.
Print Assumptions C178_fails.
Print Assumptions C178_missing.
Print Assumptions C178_doctor.
Print Assumptions C178_advice_refuted.
Print Assumptions C178_module_first_refuted.
Print Assumptions C178_outside_refuted.
