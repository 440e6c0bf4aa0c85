(* C73-C76: environment placeholders, run directories, "auto" values, derived seeds. *)
From Coq Require Import String Ascii ZifyBool ZifyNat.
From Verif Require Import Prelude FloatModel PyValue DecString HpoModel HpoSpec LimitsModel LimitsSpec BenchIoModel BenchIoSpec BenchIoProofs RunDirProofs.
Local Open Scope string_scope.
Local Open Scope Z_scope.
Local Open Scope list_scope.
Local Notation length := List.length.

(* ----- C73 ----- *)
Theorem C73_text_expanded env defaults s t :
  expand_text env defaults s = Ok t <-> expanded (value_of env defaults) s t.
Proof. apply expand_ok. Qed.

Theorem C73_text_refused env defaults s e : expand_text env defaults s = Err e <->
  e = ValueError /\ exists before b n, placeholder_after s before b n /\ value_of env defaults n = None.
Proof. apply expand_err. Qed.

(* a text has one reading: the result is determined *)
Theorem C73_one_reading value s t u : expanded value s t -> expanded value s u -> t = u.
Proof. apply expanded_fun. Qed.

Theorem C73_plain_text_is_kept env defaults s : (forall before b n, ~ placeholder_after s before b n) -> expand_text env defaults s = Ok s.
Proof. intros N. apply expand_ok, no_placeholder, N. Qed.

Theorem C73_every_place env defaults d c p : load_config env defaults (PDict d) = Ok c ->
  expands_to (value_of env defaults) (value_at (PDict d) p) (value_at c p).
Proof. intros E. apply (ev_places env defaults p _ _ E). Qed.

Theorem C73_fails_iff_unresolved env defaults d e : unique_keys (PDict d) ->
  (load_config env defaults (PDict d) = Err e <->
   e = ValueError /\ exists p s before b n, value_at (PDict d) p = Some (PStr s) /\
     placeholder_after (list_ascii_of_string s) before b n /\ value_of env defaults n = None).
Proof. apply ev_err_iff. Qed.

Theorem C73_root_must_be_a_mapping env defaults v :
  load_config env defaults PNone = Ok (PDict []) /\
  ((forall d, v <> PDict d) -> v <> PNone -> load_config env defaults v = Err ValueError).
Proof. split; [reflexivity|]. intros H N. destruct v; try reflexivity; [congruence|exfalso; eapply H; reflexivity]. Qed.

Definition ex_env (n : text) : option text :=
  if list_eq_dec ascii_dec n (list_ascii_of_string "HOME") then Some (list_ascii_of_string "/h$USER") else None.
Definition ex_defaults (n : text) : option text :=
  if list_eq_dec ascii_dec n (list_ascii_of_string "HOME") then Some (list_ascii_of_string "/other")
  else if list_eq_dec ascii_dec n (list_ascii_of_string "MODSSC_CACHE_DIR") then Some (list_ascii_of_string "/c") else None.
Example C73_satisfiable :
  load_config ex_env ex_defaults (PDict [("dataset", PDict [("cache_dir", PStr "${HOME}/x:$MODSSC_CACHE_DIR.tmp"); ("n", PInt 3)]);
                                         ("cost", PList [PStr "5$ or $$HOME or \$HOME or ${1}"])]) =
    Ok (PDict [("dataset", PDict [("cache_dir", PStr "/h$USER/x:/c.tmp"); ("n", PInt 3)]);
               ("cost", PList [PStr "5$ or $$HOME or \$HOME or ${1}"])]) /\
  load_config ex_env ex_defaults (PDict [("a", PList [PStr "ok"; PStr "$HOMES"])]) = Err ValueError /\
  unique_keys (PDict [("a", PList [PStr "ok"; PStr "$HOMES"])]).
Proof.
  split; [vm_compute; reflexivity|]. split; [vm_compute; reflexivity|].
  apply uk_dict; [repeat constructor; intros []|]. repeat constructor; try discriminate.
Qed.
Example C73_placeholder_satisfiable : placeholder_after (list_ascii_of_string "a${X}b") (list_ascii_of_string "a") true (list_ascii_of_string "X").
Proof.
  exists ["b"%char]. split; [reflexivity|]. split.
  - exists "X"%char, []. split; [reflexivity|]. split; [vm_compute; tauto|intros ? []].
  - split; [intros ([|x [|]] & E); discriminate|]. split; [intros ([|x [|]] & E); discriminate|discriminate].
Qed.

(* ----- C74 ----- *)
(* The name chosen is the first of base, base__r01, base__r02, ... that does not exist. *)
Theorem C74_first_free_name base existing fuel : (length existing < fuel)%nat ->
  exists k, next_available fuel (fun n => memS n existing) base 0 = Ok (numbered base k) /\
    ~ In (numbered base k) existing /\ forall j, (j < k)%nat -> In (numbered base j) existing.
Proof.
  intros L. destruct (next_available_spec base existing fuel L) as (k & E & N & B). exists k. rewrite <- candidate_numbered.
  split; [exact E|]. split; [exact N|]. intros j Hj. rewrite <- candidate_numbered. apply B, Hj.
Qed.

(* A run started alone gets a directory that did not exist, and keeps everything that existed. *)
Theorem C74_alone base base2 existing : exists steps, forall more,
  let w := run base base2 (start existing 1) (repeat 0%nat (steps + more)) in
  exists p n k, procs w = [p] /\ owns p n /\ In n (map fst (dirs w)) /\ ~ In n (map fst existing) /\
    (forall x, In x existing -> In x (dirs w)) /\
    n = numbered (match base2 0%nat with Some b => b | None => base 0%nat end) k.
Proof.
  destruct (alone base base2 existing) as (steps & H). exists steps. intros more. cbv zeta.
  destruct (H more) as (p & n & A & B & C & D & E & k & wanted & F & G & _). exists p, n, k. rewrite F in G.
  split; [exact A|]. split; [exact B|]. split; [exact E|]. split; [exact C|]. split; [exact D|exact G].
Qed.

(* Several runs started together, none of which changes its name: under every schedule, no two have the same
   directory, none has one that existed, and nothing that existed is lost. *)
Theorem C74_no_sharing_partial base existing n sched :
  let w := run base (fun _ => None) (start existing n) sched in
  (forall i j p q m, nth_error (procs w) i = Some p -> nth_error (procs w) j = Some q -> owns p m -> owns q m -> i = j) /\
  (forall i p m, nth_error (procs w) i = Some p -> owns p m -> In m (map fst (dirs w)) /\ ~ In m (map fst existing)) /\
  (forall x, In x existing -> In x (dirs w)) /\
  (forall i e, nth_error (procs w) i = Some (Failed e) -> e = FileExistsError).
Proof.
  cbv zeta. destruct (inv_run existing base sched _ (inv_start existing n)) as [A B C D].
  assert (O : forall i p m, nth_error (procs (run base (fun _ => None) (start existing n) sched)) i = Some p -> owns p m -> holds_name p = Some m).
  { intros i p m E [->|[->|[(k & ->)|[(m' & ->)| ->]]]]; try reflexivity; exfalso; destruct (B _ _ E) as (X1 & X2 & X3 & _);
      [eapply X1; reflexivity|eapply X2; reflexivity|eapply X3; reflexivity]. }
  split; [|split; [|split]].
  - intros i j p q m Ei Ej Hp Hq. eapply D; [exact Ei|exact Ej|eapply O; eassumption|eapply O; eassumption].
  - intros i p m Ei Hp. eapply C; [exact Ei|eapply O; eassumption].
  - exact A.
  - intros i e Ei. destruct (B _ _ Ei) as (_ & _ & _ & X). apply X. reflexivity.
Qed.

(* The search for a free name and the making of the directory are two steps: of two runs that want the same
   name at the same time, one fails although the next name is free. *)
Theorem C74_concurrent_start_refuted :
  let w := run (fun _ => "exp") (fun _ => None) (start [] 2) [0; 1; 0; 1]%nat in
  procs w = [Made "exp"; Failed FileExistsError] /\ has_dir (dirs w) "exp__r01" = false.
Proof. vm_compute. auto. Qed.

(* The change of name after a search replaces a directory another run has just made: both then have it. *)
Theorem C74_rename_shares_refuted :
  let base := fun i => if Nat.eqb i 0 then "exp-a" else "exp-b" in
  let base2 := fun i => if Nat.eqb i 0 then Some "exp-b" else None in
  let w := run base base2 (start [] 2) [0; 0; 0; 0; 0; 1; 1; 0]%nat in
  procs w = [Moved "exp-b"; Made "exp-b"] /\ owns (Moved "exp-b") "exp-b" /\ owns (Made "exp-b") "exp-b" /\ dirs w = [("exp-b", true)].
Proof. cbv zeta. split; [vm_compute; reflexivity|]. split; [unfold owns; tauto|]. split; [unfold owns; tauto|]. vm_compute. reflexivity. Qed.

Example C74_satisfiable :
  procs (run (fun _ => "exp") (fun _ => None) (start [("exp", true)] 2) [0; 0; 0; 0; 1; 1; 1; 1; 1]%nat) = [Filled "exp__r01"; Filled "exp__r02"] /\
  next_available 3 (fun n => memS n ["exp"; "exp__r01"]) "exp" 0 = Ok "exp__r02" /\ numbered "exp" 12 = "exp__r12".
Proof. repeat split; vm_compute; reflexivity. Qed.

(* ----- C75 ----- *)
Theorem C75_auto_places_found v p : unique_keys v ->
  (In p (scan_auto v []) <-> exists front k s, p = front ++ [K k] /\ value_at v p = Some (PStr s) /\ auto_text s /\ auto_setting k).
Proof.
  intros U. rewrite (scan_auto_spec v [] p U). split.
  - intros (q & -> & A). exact A.
  - intros A. exists p. split; [reflexivity|exact A].
Qed.

Theorem C75_refused_iff v : unique_keys v ->
  (refuse_auto v = Ok tt <->
   ~ exists p k s, value_at v (p ++ [K k]) = Some (PStr s) /\ auto_text s /\ auto_setting k) /\
  (forall e, refuse_auto v = Err e -> e = BenchError).
Proof.
  intros U. split; [|unfold refuse_auto; destruct (scan_auto v []); [discriminate|congruence]].
  unfold refuse_auto. split.
  - intros E (p & k & s & V & T & S'). assert (X : In (p ++ [K k]) (scan_auto v [])).
    { apply C75_auto_places_found; [exact U|]. exists p, k, s. auto. }
    destruct (scan_auto v []); [destruct X|discriminate].
  - intros N. destruct (scan_auto v []) as [|q l] eqn:E; [reflexivity|]. exfalso. apply N.
    assert (X : In q (scan_auto v [])) by (rewrite E; left; reflexivity).
    apply C75_auto_places_found in X; [|exact U]. destruct X as (p & k & s & -> & V & T & S'). exists p, k, s. auto.
Qed.

Example C75_satisfiable :
  let v := PDict [("method", PDict [("device", PDict [("device", PStr " AUTO ")]); ("name", PStr "auto")]);
                  ("views", PList [PDict [("backend", PStr "auto")]])] in
  scan_auto v [] = [[K "method"; K "device"; K "device"]; [K "views"; I 0; K "backend"]] /\ refuse_auto v = Err BenchError /\
  refuse_auto (PDict [("backend", PStr "numpy")]) = Ok tt /\ unique_keys v.
Proof.
  cbv zeta. split; [vm_compute; reflexivity|]. split; [vm_compute; reflexivity|]. split; [vm_compute; reflexivity|].
  repeat first [apply uk_dict | apply uk_list | apply Forall_cons | apply Forall_nil | apply NoDup_cons | apply NoDup_nil | (apply uk_other; discriminate)]; cbn; intuition discriminate.
Qed.

(* ----- C76 ----- *)
(* What is hashed determines the run's seed and the label; the labels in use differ from one another. *)
Theorem C76_seed_and_label m l m' l' : seed_payload m l = seed_payload m' l' -> m = m' /\ l = l'.
Proof. apply payload_inj. Qed.
Theorem C76_trials_apart t r t' r' : 0 <= t -> 0 <= t' -> trial_label t r = trial_label t' r' -> t = t' /\ r = r'.
Proof. apply trial_label_inj. Qed.
Theorem C76_labels_apart :
  NoDup ["sampling"; "preprocess"; "views"; "graph"; "augmentation"; "method"] /\
  forall t r, ~ In (trial_label t r) ["sampling"; "preprocess"; "views"; "graph"; "augmentation"; "method"].
Proof.
  split; [repeat constructor; cbn; intuition discriminate|]. intros t r. cbn. intuition discriminate.
Qed.
Theorem C76_range sha m l : (forall s, Forall (fun b => 0 <= b < 256) (sha s)) -> 0 <= derive_seed sha m l < 2 ^ 32.
Proof. intros H. apply be32_range, H. Qed.
Theorem C76_explicit_seed_wins sha m l s : seed_for sha m l (Some s) = s /\ seed_for sha m l None = derive_seed sha m l.
Proof. split; reflexivity. Qed.
Example C76_satisfiable : derive_seed (fun s => map (fun c => Z.of_nat (nat_of_ascii c)) (list_ascii_of_string s)) 42 "method" = 875706989 /\
  trial_label 3 0 = "hpo-trial-3-repeat-0".
Proof. vm_compute. auto. Qed.

Print Assumptions C73_text_expanded.
Print Assumptions C73_text_refused.
Print Assumptions C73_one_reading.
Print Assumptions C73_plain_text_is_kept.
Print Assumptions C73_every_place.
Print Assumptions C73_fails_iff_unresolved.
Print Assumptions C73_root_must_be_a_mapping.
Print Assumptions C74_first_free_name.
Print Assumptions C74_alone.
Print Assumptions C74_no_sharing_partial.
Print Assumptions C74_concurrent_start_refuted.
Print Assumptions C74_rename_shares_refuted.
Print Assumptions C75_auto_places_found.
Print Assumptions C75_refused_iff.
Print Assumptions C76_seed_and_label.
Print Assumptions C76_trials_apart.
Print Assumptions C76_labels_apart.
Print Assumptions C76_range.
Print Assumptions C76_explicit_seed_wins.
