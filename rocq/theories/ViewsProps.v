(* Feature views: the properties. *)
From Coq Require Import String Ascii SpecFloat.
From Verif Require Import Prelude ListFacts SampleServiceProofs FloatModel SamplingSpec FloatProofs ViewsModel ViewsSpec ViewsProofs.
Local Open Scope Z_scope.
Local Open Scope list_scope.

(* C32: a plan is accepted exactly when it is well formed *)
Theorem C32_plan_accepted_iff {P} (plan : list (view_spec P)) : validate_plan plan = Ok tt <-> well_formed_plan plan.
Proof. apply validate_plan_ok. Qed.

Section Views.
Context {V Y E M O P : Type}.
Variables (D : Draws) (dflt : V) (prep : P -> dataset V Y E M O -> result (dataset V Y E M O)).

(* C32: every view asked for is there, in the order of the plan, with the columns its selection describes, and holds
   exactly the rows of the dataset restricted to these columns, with the same labels, edges and masks *)
Theorem C32_views (data : dataset V Y E M O) plan seed views columns : draws_ok D ->
  generate_views D dflt prep data plan seed = Ok (views, columns) ->
  well_formed_plan plan /\ map fst views = map v_name plan /\ map fst columns = map v_name plan /\
  exists nmap, map fst nmap = map v_name plan /\ forall v, In v plan -> view_of dflt prep data columns views nmap v.
Proof. intros HD. apply generate_ok, HD. Qed.

(* C32: a view and its complement share out the columns *)
Theorem C32_complement_partitions (data : dataset V Y E M O) plan seed views columns u v s cu cv : draws_ok D ->
  generate_views D dflt prep data plan seed = Ok (views, columns) ->
  In u plan -> In v plan -> v_columns v = Some s -> cs_mode s = Complement -> cs_complement_of s = Some (v_name u) ->
  In (v_name u, cu) columns -> In (v_name v, cv) columns ->
  exists n, Permutation (cu ++ cv) (arange n).
Proof.
  intros HD H Hu Hv Hs Hm Ht Iu Iv. destruct (generate_ok D HD dflt prep _ _ _ _ _ H) as (W & _ & C & nmap & Nn & A).
  assert (Hnd : NoDup (map v_name plan)) by apply W.
  destruct (A u Hu) as (du & n & cu' & wu & _ & _ & U3 & U4 & _ & _ & U7 & U8 & _).
  destruct (A v Hv) as (dv & n' & cv' & wv & _ & _ & _ & V4 & _ & _ & V7 & V8 & V9 & V10 & _).
  assert (Hc : forall k a b, In (k, a) columns -> In (k, b) columns -> a = b).
  { intros k a b Ha Hb. rewrite <- C in Hnd. apply (In_assoc _ _ _ Hnd) in Ha. apply (In_assoc _ _ _ Hnd) in Hb. congruence. }
  assert (Hn : forall k a b, In (k, a) nmap -> In (k, b) nmap -> a = b).
  { intros k a b Ha Hb. rewrite <- Nn in Hnd. apply (In_assoc _ _ _ Hnd) in Ha. apply (In_assoc _ _ _ Hnd) in Hb. congruence. }
  rewrite (Hc _ _ _ Iu U4), (Hc _ _ _ Iv V4) in *. clear Iu Iv.
  destruct (V10 s Hs Hm) as (other & O1 & O2). assert (other = v_name u) as -> by congruence. rewrite <- (Hn _ _ _ U3 O2) in *.
  unfold describes in V9. rewrite Hs, Hm in V9. destruct V9 as (other & base & B1 & B2 & B3). assert (other = v_name u) as -> by congruence.
  rewrite (Hc _ _ _ B2 U4) in *. exists n. apply NoDup_Permutation.
  - apply NoDup_app_iff. split; [apply ascending_NoDup, U7|]. split; [apply ascending_NoDup, V7|]. intros c Hx Hy. apply B3 in Hy. tauto.
  - apply arange_NoDup.
  - intros c. rewrite in_app_iff, arange_In, B3. split; [intros [Hx|Hx]; [apply U8, Hx|tauto]|].
    intros Hx. destruct (in_dec Z.eq_dec c cu'); tauto.
Qed.

(* C32: the ready-made two-view plan runs exactly when its rounded fraction leaves a column for the second view *)
Theorem C32_two_view_runs_iff (data : dataset V Y E M O) seed fraction off a b plan n r : draws_ok D ->
  two_view_split None fraction off a b = Ok plan ->
  wide data n -> 0 < n -> rounded_share fraction n r ->
  0 <= Z.lxor (Z.lxor seed (stable_u32 D a)) off ->
  ((exists res, generate_views D dflt prep data plan seed = Ok res) <-> Z.max 1 (Z.min n r) < n).
Proof. intros HD Hp Hw Hn Hr Hs. exact (two_view_runs D HD dflt prep data seed fraction off a b plan n r Hp Hw Hn (share_round _ _ _ Hr) Hs). Qed.
End Views.

(* C54: a dataset without a "views" entry keeps its metadata, and the metadata of each view lists that view only *)
Theorem C54_metadata_partial m cols m' addrs : record_views m None cols = (m', addrs) ->
  (forall i, (i < List.length m)%nat -> nth i m' [] = nth i m []) /\ NoDup addrs /\
  Forall2 (fun a c => nth a m' [] = [c]) addrs cols.
Proof.
  intros H. destruct (record_all_fresh _ _ _ _ H) as ([l Hl] & L & F). split.
  - intros i Hi. rewrite Hl. apply app_nth1, Hi.
  - assert (Ea : addrs = seq (List.length m) (List.length cols)).
    { apply (nth_ext _ _ O O); [rewrite seq_length; exact L|]. intros k Hk. rewrite seq_nth by lia. apply F. lia. }
    split; [rewrite Ea; apply seq_NoDup|]. clear Ea.
    assert (G : forall (xs : list nat) (ys : list (string * list Z)), List.length xs = List.length ys ->
      (forall k, (k < List.length ys)%nat -> nth (nth k xs O) m' [] = [nth k ys (""%string, [])]) -> Forall2 (fun a c => nth a m' [] = [c]) xs ys).
    { intros xs. induction xs as [|x xs IH]; intros [|y ys] Hl2 Hk; try discriminate; [constructor|]. constructor; [apply (Hk O); cbn; lia|].
      apply IH; [injection Hl2; auto|]. intros k Hk2. apply (Hk (S k)). cbn. lia. }
    apply G; [exact L|]. intros k Hk. apply F, Hk.
Qed.
(* C54: views of a dataset that is itself a view are written into that dataset's own metadata *)
Theorem C54_metadata_refuted : exists m a cols m' addrs, (a < List.length m)%nat /\
  record_views m (Some a) cols = (m', addrs) /\ nth a m' [] <> nth a m [] /\ addrs = [a; a].
Proof.
  exists [[("text"%string, [0; 1])]], O, [("a"%string, [0]); ("b"%string, [1])]. eexists. eexists. split; [cbn; lia|].
  split; [reflexivity|]. split; [discriminate|reflexivity].
Qed.

(* ---- the hypotheses are met *)
Definition first_columns : Draws := {| stable_u32 := fun _ => 7; choice := fun _ _ k => arange k |}.
Example first_columns_ok : draws_ok first_columns.
Proof.
  intros seed n k Hk. cbn. split; [unfold lenZ; rewrite arange_length; lia|]. split; [apply arange_NoDup|]. intros c Hc. apply arange_In in Hc. lia.
Qed.
Definition half : f64 := S754_finite false 4503599627370496 (-53).
Definition small : dataset Z (list Z) unit unit unit :=
  {| d_train := {| s_X := Plain (Matrix 3 [[10; 11; 12]; [20; 21; 22]]); s_y := [0; 1]; s_edges := tt; s_masks := tt |};
     d_test := Some {| s_X := Plain (Matrix 3 [[30; 31; 32]]); s_y := [1]; s_edges := tt; s_masks := tt |} |}.
Example two_views_of_small : exists plan views,
  two_view_split (None : option unit) half 0 "view_a" "view_b" = Ok plan /\
  generate_views first_columns 0 (fun _ d => Ok d) small plan 5 = Ok (views, [("view_a", [0; 1]); ("view_b", [2])])%string /\
  wide small 3 /\ rounded_share half 3 2.
Proof.
  eexists. eexists. split; [vm_compute; reflexivity|]. split; [vm_compute; reflexivity|]. split.
  - split; [eexists; reflexivity|]. intros t [= <-]. eexists. eexists. split; [reflexivity|lia].
  - apply round_mul_spec. vm_compute. reflexivity.
Qed.
(* a fraction of 1 is accepted by the plan, but leaves nothing for the complement *)
Example whole_fraction_fails : exists plan,
  two_view_split (None : option unit) f64_one 0 "view_a" "view_b" = Ok plan /\
  generate_views first_columns 0 (fun _ d => Ok d) small plan 5 = Err ViewsError.
Proof. eexists. split; [vm_compute; reflexivity|]. vm_compute. reflexivity. Qed.
Example metadata_of_plain_dataset :
  record_views [] None [("a", [0]); ("b", [1])]%string = ([[("a", [0])]; [("b", [1])]]%string, [0; 1]%nat).
Proof. reflexivity. Qed.

Print Assumptions C32_plan_accepted_iff.
Print Assumptions C32_views.
Print Assumptions C32_complement_partitions.
Print Assumptions C32_two_view_runs_iff.
Print Assumptions C54_metadata_partial.
Print Assumptions C54_metadata_refuted.
